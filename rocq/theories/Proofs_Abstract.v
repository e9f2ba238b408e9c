(** Proofs_Abstract.v -- the table model refines the abstract table of columns. *)
From Coq Require Import ZArith NArith List String Ascii Bool SpecFloat Permutation Lia.
From Verif Require Import Base Model_Names Model_Table Model_Sort Model_Ops Spec Spec_Sort Spec_Abstract
  Proofs_Lib Proofs_Table Proofs_Cells Proofs_Struct Proofs_Api Proofs_Pres Proofs_Zero Proofs_Api2 Props_Cells Props_Struct
  Proofs_Copy Proofs_Sort Proofs_Keys Props_Sort.
Import ListNotations.
Local Open Scope string_scope.
Local Open Scope list_scope.

(** ---------- the abstraction, column by column ---------- *)

Definition colv (i : nat) (rs : list (list value)) : list value := map (fun row => nth i row VNil) rs.

Lemma nth_error_seq0 n i : nth_error (seq 0 n) i = if Nat.ltb i n then Some i else None.
Proof.
  destruct (Nat.ltb_spec i n).
  - rewrite (nth_error_nth' _ 0) by (rewrite seq_length; lia). f_equal. rewrite seq_nth; lia.
  - apply nth_error_None. rewrite seq_length. lia.
Qed.

Lemma abs_col t i : nth_error (a_cols (abs t)) i =
  match nth_error (cnames t) i, nth_error (ctypes t) i with
  | Some n, Some ct => Some (mkCol n ct (colv i (rows t))) | _, _ => None end.
Proof.
  unfold abs. cbn [a_cols]. rewrite nth_error_map, nth_error_combine, nth_error_seq0, nth_error_combine.
  destruct (Nat.ltb_spec i (List.length (cnames t))) as [L|L].
  - destruct (nth_error (cnames t) i), (nth_error (ctypes t) i); reflexivity.
  - apply nth_error_None in L. rewrite L. reflexivity.
Qed.

Lemma abs_width t : wf_table t -> List.length (a_cols (abs t)) = List.length (cnames t).
Proof.
  intros W. unfold abs. cbn [a_cols]. rewrite map_length, !combine_length, seq_length, (wf_types_len _ W). lia.
Qed.

Lemma map_nth_ext {A B} (f : A -> B) l l' : (forall i, option_map f (nth_error l i) = nth_error l' i) -> map f l = l'.
Proof. intros H. apply nth_error_ext. intros i. rewrite nth_error_map. apply H. Qed.

Lemma abs_names t : wf_table t -> names (abs t) = cnames t.
Proof.
  intros W. unfold names. apply map_nth_ext. intros i. rewrite abs_col.
  destruct (nth_error (cnames t) i) eqn:N; [|reflexivity].
  destruct (nth_error (ctypes t) i) eqn:T; [reflexivity|].
  apply nth_error_None in T. apply nth_error_Some_lt in N || (assert (i < List.length (cnames t)) by (apply nth_error_Some; congruence)).
  rewrite (wf_types_len _ W) in T. lia.
Qed.
Lemma abs_types t : wf_table t -> types (abs t) = ctypes t.
Proof.
  intros W. unfold types. apply map_nth_ext. intros i. rewrite abs_col.
  destruct (nth_error (ctypes t) i) eqn:T; [|destruct (nth_error (cnames t) i); reflexivity].
  destruct (nth_error (cnames t) i) eqn:N; [reflexivity|].
  apply nth_error_None in N. assert (i < List.length (ctypes t)) by (apply nth_error_Some; congruence).
  rewrite (wf_types_len _ W) in *. lia.
Qed.

Lemma abs_col_some t i n ct : nth_error (cnames t) i = Some n -> nth_error (ctypes t) i = Some ct ->
  nth_error (a_cols (abs t)) i = Some (mkCol n ct (colv i (rows t))).
Proof. intros N T. rewrite abs_col, N, T. reflexivity. Qed.
Lemma abs_col_inv t i col : nth_error (a_cols (abs t)) i = Some col ->
  nth_error (cnames t) i = Some (c_name col) /\ nth_error (ctypes t) i = Some (c_type col) /\ c_vals col = colv i (rows t).
Proof.
  rewrite abs_col. destruct (nth_error (cnames t) i), (nth_error (ctypes t) i); try discriminate.
  intros H. injection H as <-. repeat split.
Qed.

Lemma col_no_inv t c col : col_no (abs t) c = Some col <-> (0 <= c)%Z /\ nth_error (a_cols (abs t)) (Z.to_nat c) = Some col.
Proof. unfold col_no. destruct (Z.ltb_spec c 0); split; try intros [? ?]; try discriminate; try lia; auto. Qed.

Lemma find_name cs cn : NoDup (map c_name cs) -> forall i col, nth_error cs i = Some col -> c_name col = cn ->
  find (fun c => c_name c =? cn) cs = Some col.
Proof.
  induction cs as [|c cs IH]; intros ND i col H E; [destruct i; discriminate|].
  cbn [find]. inversion_clear ND as [|? ? NI ND']. destruct i; cbn in H.
  - injection H as ->. rewrite E, String.eqb_refl. reflexivity.
  - destruct (c_name c =? cn) eqn:Q; [|eauto]. apply String.eqb_eq in Q. exfalso. apply NI. rewrite Q, <- E.
    apply in_map, (nth_error_In _ _ H).
Qed.
Lemma col_of_inv t cn col : wf_table t -> col_of (abs t) cn = Some col <->
  exists i, nth_error (a_cols (abs t)) i = Some col /\ c_name col = cn.
Proof.
  intros W. unfold col_of. split.
  - intros F. apply find_some in F as [I Q]. apply String.eqb_eq in Q. apply In_nth_error in I as [i I]. eauto.
  - intros (i & H & E). eapply find_name; eauto. change (NoDup (names (abs t))). rewrite (abs_names _ W). apply (wf_nodup _ W).
Qed.
Lemma col_of_none t cn : wf_table t -> col_of (abs t) cn = None <-> ~ In cn (cnames t).
Proof.
  intros W. rewrite <- (abs_names _ W). unfold col_of, names. split.
  - intros F I. apply in_map_iff in I as (c & Q & I). pose proof (find_none _ _ F _ I) as Z. cbn beta in Z.
    rewrite Q, String.eqb_refl in Z. discriminate.
  - intros N. destruct (find _ _) eqn:F; [|reflexivity]. apply find_some in F as [I Q]. apply String.eqb_eq in Q.
    exfalso. apply N. rewrite <- Q. apply in_map. exact I.
Qed.

Lemma nth_colv i rs r : nth_error (colv i rs) r = option_map (fun row => nth i row VNil) (nth_error rs r).
Proof. apply nth_error_map. Qed.

Lemma colv_at t i r col : wf_table t -> nth_error (a_cols (abs t)) i = Some col ->
  nth_error (c_vals col) r = at_cell t i r.
Proof.
  intros W H. apply abs_col_inv in H as (N & T & ->). rewrite nth_colv. unfold at_cell.
  destruct (nth_error (rows t) r) as [row|] eqn:R; [|reflexivity]. cbn [option_map].
  pose proof (wf_row_len _ W _ _ R) as L.
  assert (i < List.length (cnames t)) by (apply nth_error_Some; congruence).
  symmetry. apply nth_error_nth'. lia.
Qed.

Lemma get_abs t c r : wf_table t -> GetValByColIndex t c r =
  answer (match col_no (abs t) c with Some col => at_row col r | None => None end).
Proof.
  intros W. rewrite (get_at _ _ _ W). unfold col_no, at_row.
  destruct (Z.leb_spec 0 c), (Z.ltb_spec c 0); try lia; [|reflexivity]. cbn [andb].
  destruct (nth_error (a_cols (abs t)) (Z.to_nat c)) as [col|] eqn:H1.
  - destruct (Z.leb_spec 0 r), (Z.ltb_spec r 0); try lia; [|reflexivity]. rewrite (colv_at _ _ _ _ W H1).
    destruct (at_cell _ _ _); reflexivity.
  - destruct (0 <=? r)%Z; [|reflexivity]. destruct (at_cell t (Z.to_nat c) (Z.to_nat r)) eqn:A; [|reflexivity].
    apply (at_cell_range _ _ _ _ W) in A as [A _]. apply nth_error_None in H1. rewrite (abs_width _ W) in H1. lia.
Qed.

Lemma col_no_at t c cn : wf_table t -> option_map c_name (col_no (abs t) c) = Some cn <-> col_at t c cn.
Proof.
  intros W. unfold col_at, col_no. destruct (Z.ltb_spec c 0) as [L|L].
  - split; [discriminate|lia].
  - rewrite <- nth_error_map. change (map c_name (a_cols (abs t))) with (names (abs t)). rewrite (abs_names _ W). tauto.
Qed.

Lemma col_of_no t c cn : wf_table t -> col_at t c cn -> exists col, col_of (abs t) cn = Some col /\ col_no (abs t) c = Some col
  /\ c_name col = cn.
Proof.
  intros W H. apply (col_no_at _ _ _ W) in H. destruct (col_no (abs t) c) as [col|] eqn:N; [|discriminate]. injection H as H.
  exists col. repeat split; auto. apply (col_of_inv _ _ _ W). apply col_no_inv in N as [_ N]. eauto.
Qed.

Lemma a_get_abs t cn r : wf_table t -> GetVal t cn r = answer (a_get (abs t) cn r).
Proof.
  intros W. unfold a_get. destruct (in_dec string_dec cn (cnames t)) as [I|I].
  - apply col_at_In in I as [c I]. rewrite (GetVal_col_at _ _ _ _ W I), (get_abs _ _ _ W).
    destruct (col_of_no _ _ _ W I) as (col & -> & -> & _). reflexivity.
  - rewrite (GetVal_no_col _ _ _ W I). apply (col_of_none _ _ W) in I. rewrite I. reflexivity.
Qed.

Lemma row_in_abs t r : row_in (abs t) r <-> (0 <= r < RowCount t)%Z.
Proof. reflexivity. Qed.
Lemma col_in_abs t c : wf_table t -> col_in (abs t) c <-> (0 <= c < ColCount t)%Z.
Proof. intros W. unfold col_in. rewrite (abs_width _ W). reflexivity. Qed.

(** Every reading method answers as on the abstract table. *)
Lemma abs_answers t : wf_table t -> same_answers t (abs t).
Proof.
  intros W.
  assert (NO : forall c, match col_no (abs t) c with
     | Some col => col_at t c (c_name col) /\ nth_error (ctypes t) (Z.to_nat c) = Some (c_type col) /\ (0 <= c < ColCount t)%Z
     | None => ~ (0 <= c < ColCount t)%Z end).
  { intros c. destruct (col_no (abs t) c) as [col|] eqn:H.
    - assert (C : col_at t c (c_name col)) by (apply (col_no_at _ _ _ W); rewrite H; reflexivity).
      split; [exact C|]. apply col_no_inv in H as [L H]. apply abs_col_inv in H as (_ & T & _).
      split; [exact T|]. apply (col_at_range _ _ _ C).
    - intros L. destruct (col_at_ex _ _ L) as [cn C]. apply (col_no_at _ _ _ W) in C. rewrite H in C. discriminate. }
  split.
  - unfold Name, abs. cbn [a_name]. destruct (is_nil t) eqn:N; [|reflexivity].
    destruct (wf_name _ W) as [[Q _]|(_ & Q & _)]; congruence.
  - unfold abs. cbn [a_name]. destruct (is_nil t); reflexivity.
  - reflexivity.
  - unfold ColCount. rewrite (abs_width _ W). reflexivity.
  - reflexivity.
  - reflexivity.
  - intros r. rewrite HasRow_iff. reflexivity.
  - intros c. specialize (NO c). rewrite ColName_eq. destruct (col_no (abs t) c) as [col|].
    + destruct NO as ((L & N) & _ & R). apply HasCol_iff in R. rewrite R. cbn. f_equal. apply nth_error_nth. exact N.
    + destruct (HasColByColIndex t c) eqn:H; [|reflexivity]. apply HasCol_iff in H. tauto.
  - intros c. specialize (NO c). rewrite (ColTypeByColIndex_eq _ _ W). destruct (col_no (abs t) c) as [col|].
    + destruct NO as (_ & T & R). apply HasCol_iff in R. rewrite R, T. reflexivity.
    + destruct (HasColByColIndex t c) eqn:H; [|reflexivity]. apply HasCol_iff in H. tauto.
  - intros cn. destruct (col_of (abs t) cn) as [col|] eqn:F.
    + apply (col_of_inv _ _ _ W) in F as (i & H & E). apply abs_col_inv in H as (N & T & _). cbn.
      apply (wf_ColType_iff _ W). exists i. rewrite <- E. auto.
    + apply (col_of_none _ _ W) in F. cbn. apply (wf_ColType_err _ W). exact F.
  - intros cn. rewrite (wf_HasCol _ W). f_equal. destruct (col_of (abs t) cn) as [col|] eqn:F.
    + destruct (in_dec string_dec cn (cnames t)) as [I|I]; [reflexivity|]. apply (col_of_none _ _ W) in I. congruence.
    + apply (col_of_none _ _ W) in F. destruct (in_dec string_dec cn (cnames t)); [contradiction|reflexivity].
  - intros cn c. rewrite (col_no_at _ _ _ W). symmetry. apply (ColIndex_col_at _ _ _ W).
  - intros c r. apply (get_abs _ _ _ W).
  - intros cn r. apply (a_get_abs _ _ _ W).
  - intros vt c r v V. destruct (C04_typed_getter_by_index vt t c r W V) as [A B]. specialize (NO c).
    pose proof (get_abs _ c r W) as G. split.
    + intros H. destruct (col_no (abs t) c) as [col|].
      * destruct NO as (_ & T & R). exists col. split; [reflexivity|].
        assert (D : same_go_type vt (c_type col) /\ (0 <= r < RowCount t)%Z).
        { destruct (same_go_typeb vt (c_type col)) eqn:Q.
          - apply same_go_typeb_spec in Q. split; [exact Q|]. destruct (HasRow t r) eqn:HR; [apply HasRow_iff; exact HR|].
            rewrite B in H; [discriminate|]. intros (ct & _ & T' & _ & L). apply HasRow_iff in L. congruence.
          - rewrite B in H; [discriminate|]. intros (ct & _ & T' & S & _). rewrite T in T'. injection T' as <-.
            apply same_go_typeb_spec in S. congruence. }
        destruct D as [D1 D2]. split; [exact D1|]. destruct A as (w & A1 & _ & A2); [eauto 8|]. rewrite A2 in G.
        destruct (at_row col r); [|discriminate]. injection G as <-. congruence.
      * rewrite B in H; [discriminate|]. intros (ct & L & _). contradiction.
    + intros (col & C & S & AR). rewrite C in NO, G. destruct NO as (_ & T & R). rewrite AR in G.
      destruct A as (w & A1 & _ & A2).
      { exists (c_type col). repeat split; auto; try tauto.
        - unfold at_row in AR. destruct (Z.ltb_spec r 0); [discriminate|lia].
        - destruct (C04_GetValByColIndex t c r W) as [_ E]. destruct (Z.ltb_spec r (RowCount t)); [assumption|].
          rewrite E in G; [discriminate|lia]. }
      rewrite A2 in G. injection G as <-. exact A1.
  - intros vt cn r v V. destruct (in_dec string_dec cn (cnames t)) as [I|I].
    + apply col_at_In in I as [c I]. destruct (C05_queries t c cn W I) as (_ & _ & _ & _ & _ & Q). rewrite (Q _ _ V).
      destruct (col_of_no _ _ _ W I) as (col & F & N & _).
      destruct (C04_typed_getter_by_index vt t c r W V) as [A B]. specialize (NO c). pose proof (get_abs _ c r W) as G.
      rewrite N in NO, G. destruct NO as (_ & T & R). split.
      * intros H. exists col. split; [exact F|].
        assert (D : same_go_type vt (c_type col) /\ (0 <= r < RowCount t)%Z).
        { destruct (same_go_typeb vt (c_type col)) eqn:Q'.
          - apply same_go_typeb_spec in Q'. split; [exact Q'|]. destruct (HasRow t r) eqn:HR; [apply HasRow_iff; exact HR|].
            rewrite B in H; [discriminate|]. intros (ct & _ & T' & _ & L). apply HasRow_iff in L. congruence.
          - rewrite B in H; [discriminate|]. intros (ct & _ & T' & S & _). rewrite T in T'. injection T' as <-.
            apply same_go_typeb_spec in S. congruence. }
        destruct D as [D1 D2]. split; [exact D1|]. destruct A as (w & A1 & _ & A2); [eauto 8|]. rewrite A2 in G.
        destruct (at_row col r); [|discriminate]. injection G as <-. congruence.
      * intros (col' & C & S & AR). rewrite F in C. injection C as <-. rewrite AR in G.
        destruct A as (w & A1 & _ & A2).
        { exists (c_type col). repeat split; auto; try tauto.
          - unfold at_row in AR. destruct (Z.ltb_spec r 0); [discriminate|lia].
          - destruct (C04_GetValByColIndex t c r W) as [_ E]. destruct (Z.ltb_spec r (RowCount t)); [assumption|].
            rewrite E in G; [discriminate|lia]. }
        rewrite A2 in G. injection G as <-. exact A1.
    + destruct (C04_typed_getter_by_name vt t cn r W V) as [_ B]. rewrite B.
      * apply (col_of_none _ _ W) in I. split; [discriminate|]. intros (col & C & _). congruence.
      * intros (c & ct & C & _). apply I. apply col_at_In. eauto.
  - intros vt c cn r V. split.
    + destruct (C04_typed_getter_by_index vt t c r W V) as [A B]. destruct (GetTByColIndex vt t c r) eqn:G; try discriminate.
      specialize (NO c). destruct (col_no (abs t) c) as [col|].
      * destruct NO as (_ & T & R). destruct (same_go_typeb vt (c_type col)) eqn:Q.
        -- apply same_go_typeb_spec in Q. destruct (HasRow t r) eqn:HR.
           ++ apply HasRow_iff in HR. destruct A as (w & A1 & _); [eauto 8|congruence].
           ++ exfalso; enough (X : @Panic value = Err) by discriminate X; apply B. intros (ct & _ & T' & _ & L). apply HasRow_iff in L. congruence.
        -- exfalso; enough (X : @Panic value = Err) by discriminate X; apply B. intros (ct & _ & T' & S & _). rewrite T in T'. injection T' as <-.
           apply same_go_typeb_spec in S. congruence.
      * exfalso; enough (X : @Panic value = Err) by discriminate X; apply B. intros (ct & L & _). contradiction.
    + destruct (C04_typed_getter_by_name vt t cn r W V) as [A B]. destruct (GetT vt t cn r) eqn:G; try discriminate.
      destruct (in_dec string_dec cn (cnames t)) as [I|I].
      * apply col_at_In in I as [c0 I]. specialize (NO c0). destruct (col_of_no _ _ _ W I) as (col & F & N & _). rewrite N in NO.
        destruct NO as (_ & T & R). destruct (same_go_typeb vt (c_type col)) eqn:Q.
        -- apply same_go_typeb_spec in Q. destruct (HasRow t r) eqn:HR.
           ++ apply HasRow_iff in HR. destruct A as (w & A1 & _); [eauto 10|congruence].
           ++ exfalso; enough (X : @Panic value = Err) by discriminate X; apply B. intros (? & ct & _ & T' & _ & L). apply HasRow_iff in L. congruence.
        -- exfalso; enough (X : @Panic value = Err) by discriminate X; apply B. intros (c1 & ct & C1 & T' & S & _). rewrite (col_at_inj _ _ _ _ W C1 I) in T'.
           rewrite T in T'. injection T' as <-. apply same_go_typeb_spec in S. congruence.
      * exfalso; enough (X : @Panic value = Err) by discriminate X; apply B. intros (c1 & ct & C1 & _). apply I. apply col_at_In. eauto.
Qed.
