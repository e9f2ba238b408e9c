(** Proofs_Cells.v -- reading and writing cells. *)
From Coq Require Import ZArith NArith List String Ascii Bool Lia Permutation SpecFloat.
From Coq Require Import ZifyBool ZifyNat ZifyN.
From Verif Require Import Base Model_Names Model_Table Spec Proofs_Lib Proofs_Table.
Import ListNotations.
Local Open Scope string_scope.
Local Open Scope list_scope.

(** The table after a successful write. *)
Definition written (ci ri : nat) (v : value) (s : st) : st :=
  on_tab (with_rows (put ci ri v (rows (s_tab s)))) s.

Lemma ColTypeByColIndex_eq t ci : wf_table t ->
  ColTypeByColIndex t ci = if HasColByColIndex t ci then
     match nth_error (ctypes t) (Z.to_nat ci) with Some ct => Ok ct | None => Panic end else Err.
Proof.
  intros W. unfold ColTypeByColIndex, HasColByColIndex, ColCount. rewrite (wf_types_len _ W).
  destruct ((ci <? 0)%Z || (ci >? Z.of_nat (List.length (cnames t)) - 1)%Z) eqn:E; auto. cbn [negb].
  destruct (znth (ctypes t) ci) eqn:E2.
  - apply znth_some in E2. destruct E2 as [_ ->]. auto.
  - apply znth_none in E2. rewrite (wf_types_len _ W) in E2. lia.
Qed.

Lemma SetValByColIndex_eq ci ri v s : wf_table (s_tab s) ->
  let t := s_tab s in
  (not_nil_value v = true /\ (0 <= ri < RowCount t)%Z /\ exists ct, (0 <= ci)%Z /\ nth_error (ctypes t) (Z.to_nat ci) = Some ct /\ has_type ct v)
    /\ SetValByColIndex ci ri v s = (written (Z.to_nat ci) (Z.to_nat ri) v s, Ok tt)
  \/ ~ (not_nil_value v = true /\ (0 <= ri < RowCount t)%Z /\ exists ct, (0 <= ci)%Z /\ nth_error (ctypes t) (Z.to_nat ci) = Some ct /\ has_type ct v)
    /\ SetValByColIndex ci ri v s = (s, Err).
Proof.
  intros W t; subst t. unfold SetValByColIndex. mred.
  destruct (not_nil_value v) eqn:Env; [|right; split; [intros [H _]; discriminate|reflexivity]].
  destruct (HasRow (s_tab s) ri) eqn:Er; [|right; split; [|reflexivity]].
  2:{ intros [_ [H _]]. apply HasRow_iff in H. congruence. }
  pose proof (proj1 (HasRow_iff (s_tab s) ri) Er) as Hr.
  rewrite ColTypeByColIndex_eq by auto. destruct (HasColByColIndex (s_tab s) ci) eqn:Ec.
  2:{ right; split; [|reflexivity]. intros [_ [_ [ct [Hc [H _]]]]]. apply nth_error_some_lt in H.
      rewrite (wf_types_len _ W) in H. assert (HasColByColIndex (s_tab s) ci = true) by (apply HasCol_iff; unfold ColCount; lia). congruence. }
  apply HasCol_iff in Ec. unfold ColCount in Ec.
  destruct (wf_type_at _ W (Z.to_nat ci)) as [ct [Hct Hin]]; [lia|]. rewrite Hct.
  destruct ((type_string v =? ct) || isAlias ct (type_string v)) eqn:Et.
  - left. assert (has_type ct v).
    { apply type_string_has_type; auto. apply orb_true_iff in Et. rewrite String.eqb_eq in Et. auto. }
    split; [repeat split; auto; try lia; exists ct; repeat split; auto; lia|].
    mstep; rewrite set_cell_ok by (auto; unfold ColCount; lia). reflexivity.
  - right. split; [|reflexivity]. intros [_ [_ [ct' [_ [H1 H2]]]]]. inversion H1; subst ct'.
    apply type_string_has_type in H2; auto. rewrite <- String.eqb_eq in H2.
    apply orb_false_iff in Et. destruct Et, H2; congruence.
Qed.

(** Column lookup by name. *)
Lemma ColIndex_iff t n i : wf_table t -> ColIndex t n = Ok (Z.of_nat i) <-> nth_error (cnames t) i = Some n.
Proof.
  intros W. unfold ColIndex. rewrite <- (wf_map _ W). destruct (mget (cmap t) n) as [j|].
  - split; [intros [= E]; f_equal; lia|intros [= ->]; auto].
  - split; discriminate.
Qed.
Lemma ColIndex_cases t n : wf_table t ->
  (exists i, nth_error (cnames t) i = Some n /\ ColIndex t n = Ok (Z.of_nat i)) \/ (~ In n (cnames t) /\ ColIndex t n = Err).
Proof.
  intros W. unfold ColIndex. destruct (mget (cmap t) n) as [i|] eqn:E.
  - left. exists i. split; auto. now apply (wf_map _ W).
  - right. split; auto. now apply (wf_mget_none _ W).
Qed.

Lemma SetVal_eq cn ri v s : wf_table (s_tab s) ->
  let t := s_tab s in
  (exists i ct, not_nil_value v = true /\ (0 <= ri < RowCount t)%Z /\
     nth_error (cnames t) i = Some cn /\ nth_error (ctypes t) i = Some ct /\ has_type ct v
     /\ SetVal cn ri v s = (written i (Z.to_nat ri) v s, Ok tt))
  \/ ~ (exists i ct, not_nil_value v = true /\ (0 <= ri < RowCount t)%Z /\
     nth_error (cnames t) i = Some cn /\ nth_error (ctypes t) i = Some ct /\ has_type ct v)
    /\ SetVal cn ri v s = (s, Err).
Proof.
  intros W t; subst t. unfold SetVal. mstep.
  destruct (not_nil_value v) eqn:Env; [|right; split; [intros (?&?&H&_); discriminate|reflexivity]].
  mstep. destruct (ColIndex_cases (s_tab s) cn W) as [[i [Hi ->]]|[Hi ->]].
  2:{ right; split; auto. intros (i&?&_&_&H&_). apply nth_error_In in H; contradiction. }
  destruct (SetValByColIndex_eq (Z.of_nat i) ri v s W) as [[H ->]|[H ->]]; rewrite Nat2Z.id in H.
  - left. destruct H as [_ [Hr [ct [_ [H1 H2]]]]]. exists i, ct. rewrite Nat2Z.id. repeat split; auto; try lia.
  - right. split; auto. intros (j&ct&_&Hr&H1&H2&H3). apply H. split; auto. split; auto.
    exists ct. assert (j = i) by (exact (NoDup_nth _ _ _ _ (wf_nodup _ W) H1 Hi)). subst. repeat split; auto. lia.
Qed.

Lemma not_nil_arg_value vt v : In vt all_types -> arg_of_type vt v = true -> not_nil_arg v = true -> not_nil_value v = true.
Proof.
  intros H1 H2 H3. destruct v as [| | | | | |[o|]|[o|]| |]; try discriminate; auto.
  unfold arg_of_type in H2. types H1; discriminate.
Qed.

Lemma type_ok_has_type vt ct v : In vt all_types -> In ct all_types -> has_type vt v ->
  type_ok vt ct = true <-> has_type ct v.
Proof.
  intros H1 H2 H3. rewrite type_ok_same by auto. split; intros H.
  - eapply has_type_same; eauto.
  - eapply has_type_fun; eauto.
Qed.

Lemma SetT_eq vt cn ri v s : wf_table (s_tab s) -> In vt all_types -> arg_of_type vt v = true ->
  let t := s_tab s in
  (exists i ct, not_nil_arg v = true /\ (0 <= ri < RowCount t)%Z /\
     nth_error (cnames t) i = Some cn /\ nth_error (ctypes t) i = Some ct /\ has_type ct v
     /\ SetT vt cn ri v s = (written i (Z.to_nat ri) v s, Ok tt))
  \/ ~ (exists i ct, not_nil_arg v = true /\ (0 <= ri < RowCount t)%Z /\
     nth_error (cnames t) i = Some cn /\ nth_error (ctypes t) i = Some ct /\ has_type ct v)
    /\ SetT vt cn ri v s = (s, Err).
Proof.
  intros W Hvt Harg t; subst t. unfold SetT. mred.
  destruct (not_nil_arg v) eqn:Env; [|right; split; [intros (?&?&H&_); discriminate|reflexivity]].
  pose proof (not_nil_arg_value _ _ Hvt Harg Env) as Hnn.
  pose proof (proj1 (arg_has_type _ _ Hvt Hnn) Harg) as Hty.
  mstep; destruct (ColType (s_tab s) cn) as [ct| |] eqn:Ect.
  2:{ right; split; auto. intros (i&?&_&_&H&_). apply (wf_ColType_err _ W) in Ect. apply nth_error_In in H; contradiction. }
  2:{ apply (wf_ColType_no_panic _ W) in Ect; contradiction. }
  apply (wf_ColType_iff _ W) in Ect. destruct Ect as [i [Hi Hct]].
  assert (Hin : In ct all_types). { pose proof (wf_types _ W) as F. eapply Forall_nth_error in F; eauto. }
  assert (Huniq : forall j, nth_error (cnames (s_tab s)) j = Some cn -> j = i).
  { intros j Hj. exact (NoDup_nth _ _ _ _ (wf_nodup _ W) Hj Hi). }
  mstep; destruct (type_ok vt ct) eqn:Eok.
  2:{ right; split; auto. intros (j&ct'&_&_&H1&H2&H3). rewrite (Huniq _ H1) in H2. rewrite Hct in H2. inversion H2; subst.
      apply (type_ok_has_type vt) in H3; auto. congruence. }
  apply type_ok_has_type with (v:=v) in Eok; auto.
  pose proof (proj2 (ColIndex_iff (s_tab s) cn i W) Hi) as HCI. rewrite HCI.
  mstep; destruct (HasRow (s_tab s) ri) eqn:Er.
  - left. exists i, ct. apply HasRow_iff in Er. repeat split; auto; try lia.
    mstep; rewrite set_cell_ok; auto.
    + unfold written. now rewrite Nat2Z.id.
    + unfold ColCount. apply nth_error_some_lt in Hi. lia.
  - right; split; auto. intros (j&ct'&_&Hr&_). apply HasRow_iff in Hr. congruence.
Qed.

Lemma SetTByColIndex_eq vt ci ri v s : wf_table (s_tab s) -> In vt all_types -> arg_of_type vt v = true ->
  let t := s_tab s in (0 <= ci < ColCount t)%Z ->
  (exists ct, not_nil_arg v = true /\ (0 <= ri < RowCount t)%Z /\
     nth_error (ctypes t) (Z.to_nat ci) = Some ct /\ has_type ct v
     /\ SetTByColIndex vt ci ri v s = (written (Z.to_nat ci) (Z.to_nat ri) v s, Ok tt))
  \/ ~ (exists ct, not_nil_arg v = true /\ (0 <= ri < RowCount t)%Z /\
     nth_error (ctypes t) (Z.to_nat ci) = Some ct /\ has_type ct v)
    /\ SetTByColIndex vt ci ri v s = (s, Err).
Proof.
  intros W Hvt Harg t; subst t; intros Hci. unfold SetTByColIndex. mred.
  destruct (not_nil_arg v) eqn:Env; [|right; split; [intros (?&H&_); discriminate|reflexivity]].
  pose proof (not_nil_arg_value _ _ Hvt Harg Env) as Hnn.
  pose proof (proj1 (arg_has_type _ _ Hvt Hnn) Harg) as Hty.
  destruct (wf_type_at _ W (Z.to_nat ci)) as [ct [Hct Hin]]; [unfold ColCount in *; lia|]. 
  replace (znth (ctypes (s_tab s)) ci) with (Some ct) by (symmetry; apply znth_some; split; auto; lia).
  mstep; destruct (type_ok vt ct) eqn:Eok.
  2:{ right; split; auto. intros (ct'&_&_&H2&H3). rewrite Hct in H2. inversion H2; subst.
      apply (type_ok_has_type vt) in H3; auto. congruence. }
  apply type_ok_has_type with (v:=v) in Eok; auto.
  mstep; destruct (HasRow (s_tab s) ri) eqn:Er.
  - left. exists ct. apply HasRow_iff in Er. repeat split; auto; try lia.
    mstep; rewrite set_cell_ok; auto.
  - right; split; auto. intros (ct'&_&Hr&_). apply HasRow_iff in Hr. congruence.
Qed.

Lemma SetTByColIndex_panic vt ci ri v s : wf_table (s_tab s) -> not_nil_arg v = true ->
  ~ (0 <= ci < ColCount (s_tab s))%Z -> SetTByColIndex vt ci ri v s = (s, Panic).
Proof.
  intros W Hnn Hci. unfold SetTByColIndex. mred. rewrite Hnn.
  replace (znth (ctypes (s_tab s)) ci) with (@None string); auto.
  symmetry; apply znth_none. rewrite (wf_types_len _ W). auto.
Qed.

(** ---------- reads ---------- *)

Definition at_cell (t : table) (ci ri : nat) : option value :=
  match nth_error (rows t) ri with Some row => nth_error row ci | None => None end.

Lemma cell_at t ci ri : cell t ci ri =
  match (if (0 <=? ri)%Z && (0 <=? ci)%Z then at_cell t (Z.to_nat ci) (Z.to_nat ri) else None) with
  | Some v => Ok v | None => Panic end.
Proof.
  unfold cell, at_cell. destruct (znth (rows t) ri) as [row|] eqn:E.
  - apply znth_some in E. destruct E as [H1 H2]. rewrite H2.
    destruct (znth row ci) eqn:E2.
    + apply znth_some in E2. destruct E2 as [H3 H4]. rewrite H4.
      replace ((0 <=? ri) && (0 <=? ci))%Z with true by lia. reflexivity.
    + apply znth_none in E2. destruct ((0 <=? ri) && (0 <=? ci))%Z eqn:E3; auto.
      replace (nth_error row (Z.to_nat ci)) with (@None value); auto. symmetry; apply nth_error_None; lia.
  - apply znth_none in E. destruct ((0 <=? ri) && (0 <=? ci))%Z eqn:E3; auto.
    replace (nth_error (rows t) (Z.to_nat ri)) with (@None (list value)); auto. symmetry; apply nth_error_None; lia.
Qed.

Lemma at_cell_put t ci ri v c r : 
  at_cell (with_rows (put ci ri v (rows t)) t) c r =
  if Nat.eqb ri r && Nat.eqb ci c then match at_cell t c r with Some _ => Some v | None => None end else at_cell t c r.
Proof.
  unfold at_cell, put. cbn [rows with_rows].
  destruct (nth_error (rows t) ri) as [row|] eqn:E.
  - rewrite nth_error_upd. destruct (Nat.eqb_spec ri r) as [->|Hr]; cbn [andb].
    + pose proof (nth_error_some_lt _ _ _ E) as Hlt.
      destruct (Nat.ltb_spec r (List.length (rows t))); [|lia]. rewrite E. rewrite nth_error_upd.
      destruct (Nat.eqb_spec ci c) as [->|Hc]; auto.
      destruct (Nat.ltb_spec c (List.length row)) as [Hl|Hl].
      * destruct (nth_error_lt row c Hl) as [x ->]. reflexivity.
      * apply nth_error_None in Hl. rewrite Hl. auto.
    + reflexivity.
  - destruct (Nat.eqb_spec ri r) as [->|Hr]; cbn [andb]; auto. rewrite E. destruct (Nat.eqb ci c); auto.
Qed.

Lemma put_rows_length ci ri v rs : List.length (put ci ri v rs) = List.length rs.
Proof. unfold put. destruct (nth_error rs ri); auto. apply upd_length. Qed.

Lemma wf_at_cell t ci ri : wf_table t -> ci < List.length (cnames t) -> ri < List.length (rows t) ->
  exists ct v, nth_error (ctypes t) ci = Some ct /\ In ct all_types /\ at_cell t ci ri = Some v /\ cell_ok ct v.
Proof.
  intros W Hc Hr.
  destruct (wf_type_at _ W _ Hc) as [ct [Hct Hin]].
  destruct (nth_error_lt (rows t) ri) as [row Hrow]; [lia|].
  pose proof (wf_cells t W) as F. eapply Forall_nth_error in F; eauto.
  destruct (Forall2_nth _ _ _ _ _ F Hct) as [v [Hv Hok]].
  exists ct, v. repeat split; auto; try apply Hok. unfold at_cell. now rewrite Hrow.
Qed.

Lemma GetValByColIndex_eq t ci ri : wf_table t ->
  GetValByColIndex t ci ri =
  if is_nil t then Err else if HasRow t ri && HasColByColIndex t ci then
    match at_cell t (Z.to_nat ci) (Z.to_nat ri) with Some v => Ok v | None => Panic end else Err.
Proof.
  intros W. unfold GetValByColIndex. destruct (is_nil t); auto.
  destruct (HasRow t ri) eqn:Er; auto. destruct (HasColByColIndex t ci) eqn:Ec; auto. cbn [negb andb].
  rewrite cell_at. apply HasRow_iff in Er. apply HasCol_iff in Ec.
  replace ((0 <=? ri) && (0 <=? ci))%Z with true by lia. reflexivity.
Qed.

(** Observations that a cell write cannot change. *)
Definition same_frame (t t' : table) : Prop :=
  tname t' = tname t /\ cnames t' = cnames t /\ ctypes t' = ctypes t /\ cmap t' = cmap t /\
  List.length (rows t') = List.length (rows t) /\ skeys t' = skeys t /\
  struct_shape t' = struct_shape t /\ is_nil t' = is_nil t /\ parent t' = parent t.

Lemma written_frame ci ri v s : same_frame (s_tab s) (s_tab (written ci ri v s)).
Proof. unfold same_frame, written; simpl. rewrite put_rows_length. repeat split; auto. Qed.

Lemma written_wf ci ri v s ct : wf_table (s_tab s) -> nth_error (ctypes (s_tab s)) ci = Some ct ->
  has_type ct v -> go_value v = true -> wf_table (s_tab (written ci ri v s)).
Proof. intros. unfold written; simpl. eapply wf_put; eauto. split; auto. Qed.

Lemma run_eq {A} (m : M A) b t s' r : m (mkS t b []) = (s', r) -> run m b t = (s_tab s', r).
Proof. unfold run. intros ->. reflexivity. Qed.
