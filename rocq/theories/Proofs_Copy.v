(** Proofs_Copy.v -- closed forms of the methods of Model_Copy. *)
From Coq Require Import ZArith NArith List String Ascii Bool SpecFloat Permutation Lia.
From Verif Require Import Base Model_Names Model_Table Model_Sort Model_Copy Spec Spec_Copy.
From Verif Require Import Proofs_Lib Proofs_Table Proofs_Cells Proofs_Struct Proofs_Api Proofs_Api2 Proofs_Zero.
Import ListNotations.
Local Open Scope string_scope.
Local Open Scope list_scope.

(** ---------- steps that do not need a well-formed table ---------- *)

Lemma HasRow_nat t ri row : nth_error (rows t) ri = Some row -> HasRow t (Z.of_nat ri) = true.
Proof. intros H. apply HasRow_iff. unfold RowCount. apply nth_error_some_lt in H. lia. Qed.

Lemma set_cell_nat c r v s row : nth_error (rows (s_tab s)) r = Some row -> c < List.length row ->
  set_cell (Z.of_nat c) (Z.of_nat r) v s = (on_tab (with_rows (upd (rows (s_tab s)) r (upd row c v))) s, Ok tt).
Proof.
  intros H Hc. unfold set_cell. rewrite zidx_of_nat by (eapply nth_error_some_lt; eauto).
  rewrite H. now rewrite zidx_of_nat.
Qed.

Lemma SetT_direct vt cn r v s i ct row :
  not_nil_arg v = true -> ColType (s_tab s) cn = Ok ct -> type_ok vt ct = true ->
  ColIndex (s_tab s) cn = Ok (Z.of_nat i) -> nth_error (rows (s_tab s)) r = Some row -> i < List.length row ->
  SetT vt cn (Z.of_nat r) v s = (on_tab (with_rows (upd (rows (s_tab s)) r (upd row i v))) s, Ok tt).
Proof.
  intros N CT TO CI R Hi. unfold SetT. mstep. rewrite N. mstep. rewrite CT. mstep. rewrite TO. mstep. rewrite CI. mstep.
  rewrite (HasRow_nat _ _ _ R). now apply set_cell_nat.
Qed.

Lemma GetT_direct vt t cn r i ct row v :
  ColType t cn = Ok ct -> type_ok vt ct = true -> ColIndex t cn = Ok (Z.of_nat i) ->
  nth_error (rows t) r = Some row -> nth_error row i = Some v ->
  GetT vt t cn (Z.of_nat r) = type_assert vt v.
Proof.
  intros CT TO CI R V. unfold GetT. rewrite CT. cbn [rbind]. rewrite TO. cbn [negb]. rewrite CI. cbn [rbind].
  rewrite (HasRow_nat _ _ _ R). cbn [negb]. unfold cell. rewrite !znth_of_nat, R, znth_of_nat, V. reflexivity.
Qed.

Lemma AppendRow_direct s : is_nil (s_tab s) = false ->
  List.length (ctypes (s_tab s)) = List.length (cnames (s_tab s)) ->
  Forall (fun ct => In ct all_types) (ctypes (s_tab s)) ->
  AppendRow s = (row_added s, Ok tt).
Proof.
  intros N L T. unfold AppendRow. mstep. rewrite N. cbn [negb]. mstep.
  replace (RowCount _ - 1)%Z with (Z.of_nat (List.length (rows (s_tab s)))).
  2:{ unfold RowCount. simpl. rewrite app_length. simpl. lia. }
  erewrite SetRowCellsToZeroValue_eq; simpl; eauto.
  2:{ rewrite nth_error_app2, Nat.sub_diag by lia. reflexivity. }
  2:{ apply repeat_length. }
  rewrite upd_app_mid. reflexivity.
Qed.

(** A loop that appends one row per iteration. *)
Lemma mfor_snoc n (body : Z -> M unit) (rowf : nat -> list value) s :
  (forall k rs, k < n -> List.length rs = k + List.length (rows (s_tab s)) ->
     body (Z.of_nat k) (on_tab (with_rows rs) s) = (on_tab (with_rows (rs ++ [rowf k])) s, Ok tt)) ->
  mfor (zseq n) body s = (on_tab (with_rows (rows (s_tab s) ++ map rowf (seq 0 n))) s, Ok tt).
Proof.
  induction n; intros H.
  - simpl. rewrite app_nil_r. unfold on_tab, with_rows. rewrite table_eta, st_eta. reflexivity.
  - rewrite zseq_S, mfor_app. rewrite (bind_eq_ok _ _ _ _ _ (IHn (fun k rs Hk => H k rs (Nat.lt_trans _ _ _ Hk (Nat.lt_succ_diag_r n))))).
    cbn [mfor]. erewrite bind_eq_ok; [|apply H; auto].
    + unfold ret. rewrite seq_S, map_app, app_assoc. reflexivity.
    + rewrite app_length, map_length, seq_length. lia.
Qed.

(** ---------- column information ---------- *)

Definition colinfo_hdr : table :=
  mkT "ColInfo" ["index"; "colName"; "colType"] ["int"; "string"; "string"]
      [("colType", 2); ("colName", 1); ("index", 0)] [] [] false false None.
Definition colinfo_row (t : table) (k : nat) : list value :=
  [VInt KInt (Z.of_nat k); VString (nth k (cnames t) ""); VString (nth k (ctypes t) "")].
Definition colinfo (t : table) : table :=
  with_rows (map (colinfo_row t) (seq 0 (List.length (cnames t)))) colinfo_hdr.

Lemma wf_name_type t k : wf_table t -> k < List.length (cnames t) ->
  ColName t (Z.of_nat k) = Ok (nth k (cnames t) "") /\ ColType t (nth k (cnames t) "") = Ok (nth k (ctypes t) "")
  /\ In (nth k (ctypes t) "") all_types.
Proof.
  intros W H. split; [|split].
  - rewrite ColName_eq. replace (HasColByColIndex t (Z.of_nat k)) with true by (symmetry; apply HasCol_iff; unfold ColCount; lia).
    now rewrite Nat2Z.id.
  - apply wf_ColType_iff; auto. exists k. split; apply nth_error_nth'; auto. rewrite (wf_types_len _ W); auto.
  - pose proof (wf_types _ W) as F. rewrite Forall_forall in F. apply F. apply nth_In. rewrite (wf_types_len _ W); auto.
Qed.

Lemma GetColInfoAsTable_eq t : wf_table t ->
  GetColInfoAsTable t = if is_nil t then Err else Ok (colinfo t).
Proof.
  intros W. unfold GetColInfoAsTable. destruct (is_nil t); auto. unfold build, run.
  match goal with |- context [bind ?m ?f (mkS NewNilTable 0 [])] => remember (mfor _ _) as L eqn:EL end.
  assert (H : (SetName "ColInfo" ;;; AppendCol "index" "int" ;;; AppendCol "colName" "string" ;;;
     AppendCol "colType" "string" ;;; L) (mkS NewNilTable 0 []) = L (mkS colinfo_hdr 0 [])).
  { erewrite bind_eq_ok by (vm_compute; reflexivity). erewrite bind_eq_ok by (vm_compute; reflexivity).
    erewrite bind_eq_ok by (vm_compute; reflexivity). erewrite bind_eq_ok by (vm_compute; reflexivity). reflexivity. }
  rewrite H. clear H. subst L.
  rewrite (mfor_snoc _ _ (colinfo_row t)).
  - reflexivity.
  - intros k rs Hk HL. simpl in HL. rewrite Nat.add_0_r in HL.
    destruct (wf_name_type t k W Hk) as (N & T & _).
    assert (TY : Forall (fun ct => In ct all_types) (ctypes colinfo_hdr)) by (repeat (apply Forall_cons; [now apply str_in_In|]); apply Forall_nil).
    erewrite bind_eq_ok by (apply AppendRow_direct; [reflexivity|reflexivity|exact TY]).
    unfold row_added. simpl.
    erewrite bind_eq_ok.
    2:{ eapply SetT_direct with (i := 0) (ct := "int"); try reflexivity; simpl.
        - rewrite nth_error_app2, <- HL, Nat.sub_diag by lia. reflexivity.
        - simpl; lia. }
    mstep. rewrite N. mstep. rewrite T.
    erewrite bind_eq_ok.
    2:{ eapply SetT_direct with (i := 1) (ct := "string"); try reflexivity; simpl.
        - rewrite <- HL, upd_app_mid, nth_error_app2, Nat.sub_diag by lia. reflexivity.
        - simpl; lia. }
    erewrite SetT_direct with (i := 2) (ct := "string"); try reflexivity; simpl.
    2:{ rewrite <- HL, !upd_app_mid, nth_error_app2, Nat.sub_diag by lia. reflexivity. }
    2:{ simpl; lia. }
    rewrite <- HL, !upd_app_mid. reflexivity.
Qed.

Lemma colinfo_rows_length t : List.length (rows (colinfo t)) = List.length (cnames t).
Proof. simpl. now rewrite map_length, seq_length. Qed.

Lemma colinfo_row_at t k : k < List.length (cnames t) -> nth_error (rows (colinfo t)) k = Some (colinfo_row t k).
Proof.
  intros H. simpl. rewrite nth_error_map, nth_error_nth' with (d := 0) by (rewrite seq_length; auto).
  now rewrite seq_nth by auto.
Qed.

Lemma colinfo_name t k : k < List.length (cnames t) -> GetString (colinfo t) "colName" (Z.of_nat k) = Ok (nth k (cnames t) "").
Proof.
  intros H. unfold GetString. erewrite GetT_direct with (i := 1) (ct := "string"); try reflexivity.
  2:{ now apply colinfo_row_at. }
  2:{ reflexivity. }
  reflexivity.
Qed.
Lemma colinfo_type t k : k < List.length (cnames t) -> GetString (colinfo t) "colType" (Z.of_nat k) = Ok (nth k (ctypes t) "").
Proof.
  intros H. unfold GetString. erewrite GetT_direct with (i := 2) (ct := "string"); try reflexivity.
  2:{ now apply colinfo_row_at. }
  2:{ reflexivity. }
  reflexivity.
Qed.

(** ---------- AppendColsFromTable ---------- *)

(** t' is t with the columns [extra] added at the end, zero-filled. *)
Record cols_extended (fresh : ptr -> Prop) (extra : list (string * string)) (t t' : table) : Prop := {
  ce_but : same_but_cols t t';
  ce_names : cnames t' = cnames t ++ map fst extra;
  ce_types : ctypes t' = ctypes t ++ map snd extra;
  ce_rows : Forall2 (fun row row' => exists zs, row' = row ++ zs /\ Forall2 (zero_of fresh) (map snd extra) zs) (rows t) (rows t') }.

Lemma zero_of_weak (F G : ptr -> Prop) ct v : (forall p, F p -> G p) -> zero_of F ct v -> zero_of G ct v.
Proof. intros H. destruct v; simpl; auto. destruct o; simpl; intuition. Qed.

Lemma Forall2_refl {A} (P : A -> A -> Prop) l : (forall x, In x l -> P x x) -> Forall2 P l l.
Proof. induction l; constructor; auto. - apply H; now left. - apply IHl. intros; apply H; now right. Qed.

Lemma cols_extended_refl F t : cols_extended F [] t t.
Proof.
  constructor; simpl; try (now rewrite app_nil_r).
  - constructor; reflexivity.
  - apply Forall2_refl. intros r _. exists []. rewrite app_nil_r. auto.
Qed.

Lemma same_but_cols_trans a b c : same_but_cols a b -> same_but_cols b c -> same_but_cols a c.
Proof. intros [] []. constructor; congruence. Qed.

Lemma Forall2_compose {A B C} (P : A -> B -> Prop) (Q : B -> C -> Prop) (R : A -> C -> Prop) la lb lc :
  (forall a b c, P a b -> Q b c -> R a c) -> Forall2 P la lb -> Forall2 Q lb lc -> Forall2 R la lc.
Proof.
  intros H F. revert lc. induction F; intros lc G; inversion G; subst; constructor; eauto.
Qed.

Lemma cols_extended_trans (F : ptr -> Prop) e1 e2 a b c :
  cols_extended F e1 a b -> cols_extended F e2 b c -> cols_extended F (e1 ++ e2) a c.
Proof.
  intros [B1 N1 T1 R1] [B2 N2 T2 R2]. constructor.
  - eapply same_but_cols_trans; eauto.
  - now rewrite N2, N1, map_app, app_assoc.
  - now rewrite T2, T1, map_app, app_assoc.
  - eapply Forall2_compose; [|exact R1|exact R2]. simpl. intros x y z (z1 & -> & F1) (z2 & -> & F2).
    exists (z1 ++ z2). rewrite app_assoc. split; auto. rewrite map_app. now apply Forall2_app.
Qed.

Lemma cols_extended_weak (F G : ptr -> Prop) e a b : (forall p, F p -> G p) -> cols_extended F e a b -> cols_extended G e a b.
Proof.
  intros H [B N T R]. constructor; auto. eapply Forall2_impl; [|exact R]. simpl. intros x y (z & E & Z).
  exists z. split; auto. eapply Forall2_impl; [|exact Z]. intros. eapply zero_of_weak; eauto.
Qed.

Lemma zcol_zero ct p r : In ct all_types -> zero_of (fun q => p <= q) ct (zcol ct p r).
Proof.
  intros H. unfold zcol. destruct (is_tab ct) eqn:IT.
  - apply is_tab_eq in IT. subst. simpl. split; auto; lia.
  - now apply zplain_ok.
Qed.

Lemma col_added_extended cn ct s : In ct all_types ->
  cols_extended (fun p => next s <= p) [(cn, ct)] (s_tab s) (s_tab (col_added cn ct s)).
Proof.
  intros Hct. constructor; simpl; auto.
  - constructor; simpl; auto. unfold RowCount. simpl. now rewrite mapi_length.
  - generalize 0. induction (rows (s_tab s)); intros k; simpl; constructor; auto.
    eexists. split; eauto. constructor; auto. now apply zcol_zero.
Qed.

Definition absorb (p : string * string) : M unit :=
  on_err (AppendCol (fst p) (snd p))
    (let* has := reads (fun t => HasCol t (fst p)) in
     check has ;;;
     let* ct' := reads (fun t => ColType t (fst p)) in
     check (snd p =? ct')).

Lemma absorb_cases cn ct s : wf_table (s_tab s) -> is_nil (s_tab s) = false -> valid_name cn -> In ct all_types ->
  (~ In cn (cnames (s_tab s)) /\ absorb (cn, ct) s = (col_added cn ct s, Ok tt) /\ wf_table (s_tab (col_added cn ct s)))
  \/ (exists i ct', nth_error (cnames (s_tab s)) i = Some cn /\ nth_error (ctypes (s_tab s)) i = Some ct' /\
       absorb (cn, ct) s = (s, if ct =? ct' then Ok tt else Err)).
Proof.
  intros W N V T. unfold absorb, on_err. cbn [fst snd]. rewrite AppendCol_eq by auto.
  destruct (can_append_col (s_tab s) cn ct) eqn:CA.
  - left. split; [|split; auto]. 2:{ now apply col_added_wf. }
    unfold can_append_col in CA. rewrite !andb_true_iff in CA. destruct CA as [_ CA].
    apply wf_mget_none; auto. destruct (mget (cmap (s_tab s)) cn); auto. discriminate.
  - right. unfold can_append_col in CA. rewrite N, (proj2 (IsValidColName_spec cn) V), (proj2 (IsValidColType_spec ct) T) in CA.
    simpl in CA. destruct (mget (cmap (s_tab s)) cn) as [i|] eqn:G; [|discriminate].
    apply (wf_map _ W) in G. destruct (wf_type_at _ W i) as (ct' & T' & _); [eapply nth_error_some_lt; eauto|].
    exists i, ct'. repeat split; auto. mstep. rewrite wf_HasCol by auto.
    destruct (in_dec string_dec cn (cnames (s_tab s))) as [_|NI].
    2:{ exfalso. apply NI. eapply nth_error_In; eauto. }
    mstep. rewrite (proj2 (wf_ColType_iff _ W cn ct')) by eauto. unfold check. destruct (ct =? ct'); reflexivity.
Qed.

(** The columns of [cols] that are not in [ns] yet. *)
Definition missing (ns : list string) (cols : list (string * string)) : list (string * string) :=
  filter (fun p => if in_dec string_dec (fst p) ns then false else true) cols.

(** Same-named columns have the same type. *)
Definition agree_types (t : table) (cols : list (string * string)) : Prop :=
  forall cn ct i ct', In (cn, ct) cols -> nth_error (cnames t) i = Some cn -> nth_error (ctypes t) i = Some ct' -> ct' = ct.

Lemma absorb_loop cols : forall s, wf_table (s_tab s) -> is_nil (s_tab s) = false ->
  Forall (fun p => valid_name (fst p) /\ In (snd p) all_types) cols -> NoDup (map fst cols) ->
  exists s' extra, wf_table (s_tab s') /\ s_base s' = s_base s /\ (exists l, s_news s' = s_news s ++ l)
    /\ cols_extended (fun p => next s <= p) extra (s_tab s) (s_tab s')
    /\ (mfor cols absorb s = (s', Ok tt) /\ agree_types (s_tab s) cols /\ extra = missing (cnames (s_tab s)) cols
        \/ mfor cols absorb s = (s', Err) /\ ~ agree_types (s_tab s) cols).
Proof.
  induction cols as [|[cn ct] cols IH]; intros s W N F ND.
  - exists s, []. split; [auto|]. split; [auto|]. split; [exists []; now rewrite app_nil_r|]. split; [apply cols_extended_refl|].
    left. repeat split; auto. intros ? ? ? ? [].
  - inversion F as [|? ? [V T] F']; subst. inversion ND as [|? ? NI ND']; subst. cbn [fst snd map] in *.
    cbn [mfor].
    destruct (absorb_cases cn ct s W N V T) as [(NC & E & W1)|(i & ct' & C1 & C2 & E)].
    + rewrite (bind_eq_ok _ _ _ _ _ E).
      destruct (IH (col_added cn ct s)) as (s' & extra & W' & B' & (l & L') & CE & RES); auto.
      assert (NX : next s <= next (col_added cn ct s)) by (unfold next; simpl; rewrite app_length; lia).
      exists s', ((cn, ct) :: extra). split; auto. split; auto. split.
      { rewrite L'. simpl. rewrite <- app_assoc. eexists. reflexivity. }
      split.
      { apply (cols_extended_trans _ [(cn, ct)] extra _ (s_tab (col_added cn ct s))).
        - now apply col_added_extended.
        - eapply cols_extended_weak; [|exact CE]. simpl. lia. }
      assert (AG : agree_types (s_tab (col_added cn ct s)) cols <-> agree_types (s_tab s) ((cn, ct) :: cols)).
      { unfold agree_types. simpl. split.
        - intros A cn' ct1 i ct2 HI H1 H2. destruct HI as [HI|HI].
          + injection HI as <- <-. exfalso. apply NC. eapply nth_error_In; eauto.
          + apply (A cn' ct1 i); auto.
            * rewrite nth_error_app1; auto. eapply nth_error_some_lt; eauto.
            * rewrite nth_error_app1; auto. eapply nth_error_some_lt; eauto.
        - intros A cn' ct1 i ct2 HI H1 H2.
          destruct (Nat.ltb_spec i (List.length (cnames (s_tab s)))).
          + rewrite nth_error_app1 in H1 by auto. rewrite nth_error_app1 in H2 by (rewrite (wf_types_len _ W); auto).
            apply (A cn' ct1 i); auto.
          + rewrite nth_error_app2 in H1 by auto. destruct (i - List.length (cnames (s_tab s))) as [|k]; simpl in H1.
            * injection H1 as <-. exfalso. apply NI. apply (in_map fst) in HI. exact HI.
            * destruct k; discriminate. }
      destruct RES as [(R & A & X)|(R & A)]; [left|right]; rewrite R.
      * split; auto. split; [tauto|]. unfold missing. simpl.
        destruct (in_dec string_dec cn (cnames (s_tab s))); [contradiction|]. f_equal. rewrite X. unfold missing. simpl.
        apply filter_ext_in. intros [cn' ct1] HI. simpl.
        destruct (in_dec string_dec cn' (cnames (s_tab s) ++ [cn])) as [I|I], (in_dec string_dec cn' (cnames (s_tab s))) as [J|J]; auto.
        -- apply in_app_iff in I. destruct I as [I|[<-|[]]]; [contradiction|]. exfalso. apply NI. apply (in_map fst) in HI. exact HI.
        -- exfalso. apply I. apply in_app_iff. now left.
      * split; auto. tauto.
    + destruct (String.eqb_spec ct ct') as [<-|Hne].
      * rewrite (bind_eq_ok _ _ _ _ _ E).
        destruct (IH s) as (s' & extra & W' & B' & L' & CE & RES); auto.
        exists s', extra. repeat (split; [assumption|]).
        assert (AG : agree_types (s_tab s) cols <-> agree_types (s_tab s) ((cn, ct) :: cols)).
        { unfold agree_types. split.
          - intros A cn' ct1 j ct2 HI H1 H2. destruct HI as [HI|HI].
            + injection HI as <- <-. assert (i = j) by (eapply NoDup_nth; [apply (wf_nodup _ W)|eauto|eauto]). subst. congruence.
            + eapply A; eauto.
          - intros A cn' ct1 j ct2 HI. apply A. now right. }
        destruct RES as [(R & A & X)|(R & A)]; [left|right].
        -- split; auto. split; [tauto|]. rewrite X. unfold missing. simpl.
           destruct (in_dec string_dec cn (cnames (s_tab s))) as [_|J]; auto. exfalso. apply J. eapply nth_error_In; eauto.
        -- split; auto. tauto.
      * rewrite (bind_eq_err _ _ _ _ E). exists s, []. split; [auto|]. split; [auto|]. split; [exists []; now rewrite app_nil_r|]. split; [apply cols_extended_refl|].
        right. split; auto. intros A. apply Hne. symmetry. eapply (A cn ct i ct'); eauto. now left.
Qed.

Lemma mfor_zseq_list {A} (l : list A) (body : Z -> M unit) (body' : A -> M unit) s :
  (forall k x, nth_error l k = Some x -> forall s, body (Z.of_nat k) s = body' x s) ->
  mfor (zseq (List.length l)) body s = mfor l body' s.
Proof.
  revert s. induction l using rev_ind; intros s H; auto.
  rewrite app_length, Nat.add_1_r, zseq_S, !mfor_app. unfold bind at 1 2. rewrite IHl.
  - destruct (mfor l body' s) as [s1 [u| |]]; auto. simpl. unfold bind. rewrite (H (List.length l) x); auto.
    rewrite nth_error_app2, Nat.sub_diag by lia. reflexivity.
  - intros k y E. apply H. rewrite nth_error_app1; auto. eapply nth_error_some_lt; eauto.
Qed.

Definition cols_of (t : table) : list (string * string) := combine (cnames t) (ctypes t).

Lemma nth_error_combine {A B} (la : list A) (lb : list B) k :
  nth_error (combine la lb) k = match nth_error la k, nth_error lb k with Some a, Some b => Some (a, b) | _, _ => None end.
Proof.
  revert lb k. induction la; intros [|b lb] [|k]; simpl; auto.
  - destruct (nth_error la k); auto.
Qed.

Lemma map_fst_combine {A B} (la : list A) (lb : list B) : List.length la = List.length lb -> map fst (combine la lb) = la.
Proof. revert lb. induction la; intros [|b lb] H; simpl in *; auto; try discriminate. f_equal. auto. Qed.
Lemma map_snd_combine {A B} (la : list A) (lb : list B) : List.length la = List.length lb -> map snd (combine la lb) = lb.
Proof. revert lb. induction la; intros [|b lb] H; simpl in *; auto; try discriminate. f_equal. auto. Qed.

Lemma wf_cols_of t : wf_table t -> List.length (cols_of t) = List.length (cnames t) /\ map fst (cols_of t) = cnames t
  /\ map snd (cols_of t) = ctypes t /\ Forall (fun p => valid_name (fst p) /\ In (snd p) all_types) (cols_of t)
  /\ NoDup (map fst (cols_of t)).
Proof.
  intros W. pose proof (wf_types_len _ W) as L. unfold cols_of.
  assert (L1 : List.length (combine (cnames t) (ctypes t)) = List.length (cnames t)) by (rewrite combine_length; lia).
  assert (E1 : map fst (combine (cnames t) (ctypes t)) = cnames t) by (apply map_fst_combine; auto).
  assert (E2 : map snd (combine (cnames t) (ctypes t)) = ctypes t) by (apply map_snd_combine; auto).
  repeat split; auto.
  - apply Forall_forall. intros [cn ct] H. split; simpl.
    + pose proof (wf_colnames _ W) as F. rewrite Forall_forall in F. apply F. eapply in_combine_l; eauto.
    + pose proof (wf_types _ W) as F. rewrite Forall_forall in F. apply F. eapply in_combine_r; eauto.
  - rewrite E1. apply (wf_nodup _ W).
Qed.

Lemma AppendColsFromTable_eq src s : wf_table (s_tab s) -> wf_table (src (s_tab s)) ->
  AppendColsFromTable src s =
    if is_nil (s_tab s) then (s, Err) else if is_nil (src (s_tab s)) then (s, Err)
    else mfor (cols_of (src (s_tab s))) absorb s.
Proof.
  intros W WS. unfold AppendColsFromTable. mstep. destruct (is_nil (s_tab s)); auto. cbn [negb]. mstep.
  rewrite GetColInfoAsTable_eq by auto. destruct (is_nil (src (s_tab s))); auto.
  rewrite colinfo_rows_length. destruct (wf_cols_of _ WS) as (L & _). rewrite <- L.
  apply mfor_zseq_list. intros k [cn ct] H s1.
  assert (Hk : k < List.length (cnames (src (s_tab s)))) by (rewrite <- L; eapply nth_error_some_lt; eauto).
  unfold cols_of in H. rewrite nth_error_combine in H.
  destruct (nth_error (cnames (src (s_tab s))) k) eqn:E1; [|discriminate].
  destruct (nth_error (ctypes (src (s_tab s))) k) eqn:E2; [|discriminate]. injection H as -> ->.
  mstep. rewrite colinfo_name by auto. mstep. rewrite colinfo_type by auto.
  rewrite (nth_error_nth _ _ _ E1), (nth_error_nth _ _ _ E2). reflexivity.
Qed.

(** ---------- AppendRowsFromTable ---------- *)

Lemma mfor_cases (P : nat -> st -> Prop) (Q : st -> Prop) body n : forall s, P 0 s ->
  (forall k s1, k < n -> P k s1 -> (exists s2, body (Z.of_nat k) s1 = (s2, Ok tt) /\ P (S k) s2)
                                   \/ (exists s2, body (Z.of_nat k) s1 = (s2, Err) /\ Q s2)) ->
  (exists s', mfor (zseq n) body s = (s', Ok tt) /\ P n s') \/ (exists s', mfor (zseq n) body s = (s', Err) /\ Q s').
Proof.
  induction n as [|n IH]; intros s H0 H.
  - left. exists s. split; auto.
  - destruct (IH s H0) as [(s1 & E1 & P1)|(s1 & E1 & Q1)]. { intros; apply H; auto. }
    + destruct (H n s1) as [(s2 & E2 & P2)|(s2 & E2 & Q2)]; auto; [left|right]; exists s2; split; auto;
      rewrite zseq_S, mfor_app; rewrite (bind_eq_ok _ _ _ _ _ E1); simpl; unfold bind; rewrite E2; reflexivity.
    + right. exists s1. split; auto. rewrite zseq_S, mfor_app. now rewrite (bind_eq_err _ _ _ _ E1).
Qed.

(** Every column of f named in [ns] is a column of t with the same Go type. *)
Definition compat_cols (t f : table) (m : nat) : Prop :=
  forall c cn ct, c < m -> nth_error (cnames f) c = Some cn -> nth_error (ctypes f) c = Some ct ->
    exists i ct', nth_error (cnames t) i = Some cn /\ nth_error (ctypes t) i = Some ct' /\ same_go_type ct' ct.

(** A row of t's shape holding row [r] of f in the columns named by the first m columns
    of f, and zero values elsewhere. *)
Definition copied_row (fresh : ptr -> Prop) (t f : table) (m : nat) (r : nat) (row : list value) : Prop :=
  Forall2 cell_ok (ctypes t) row /\
  forall i cn ct v, nth_error (cnames t) i = Some cn -> nth_error (ctypes t) i = Some ct -> nth_error row i = Some v ->
    (forall c, c < m -> nth_error (cnames f) c = Some cn -> at_cell f c r = Some v)
    /\ ((forall c, c < m -> nth_error (cnames f) c <> Some cn) -> zero_of fresh ct v).

Lemma at_cell_ok f c r v ct : wf_table f -> at_cell f c r = Some v -> nth_error (ctypes f) c = Some ct -> cell_ok ct v.
Proof.
  intros W H T. unfold at_cell in H. destruct (nth_error (rows f) r) as [row|] eqn:E; [|discriminate].
  pose proof (Forall_nth_error _ _ _ _ (wf_cells _ W) E) as F.
  destruct (Forall2_nth _ _ _ _ _ F T) as (v' & V & C). congruence.
Qed.

(** The source answers the same whatever rows have been added to the receiver so far. *)
Definition stable (src : table -> table) (t f : table) (last : Z) : Prop :=
  forall new, let t1 := with_rows (rows t ++ new) t in
    cnames (src t1) = cnames f /\ (forall c, ColName (src t1) c = ColName f c)
    /\ (forall c r, (r <= last)%Z -> GetValByColIndex (src t1) c r = GetValByColIndex f c r).

Lemma copy_row_loop src t f last fr b news new z :
  wf_table t -> wf_table f -> stable src t f last -> (fr <= last)%Z ->
  Forall (Forall2 cell_ok (ctypes t)) new ->
  Forall2 (zero_of (fun p => b <= p)) (ctypes t) z ->
  is_nil t = false -> forall bs,
  let s := mkS (with_rows (rows t ++ new ++ [z]) t) bs news in
  let body := fun ci =>
      let* cn := reads (fun t => ColName (src t) ci) in
      let* v := reads (fun t => GetValByColIndex (src t) ci fr) in
      SetVal cn (RowCount t + Z.of_nat (List.length new)) v in
  (exists row, mfor (zseq (List.length (cnames f))) body s = (mkS (with_rows (rows t ++ new ++ [row]) t) bs news, Ok tt)
     /\ copied_row (fun p => b <= p) t f (List.length (cnames f)) (Z.to_nat fr) row
     /\ (cnames f <> [] -> (0 <= fr < RowCount f)%Z) /\ compat_cols t f (List.length (cnames f)))
  \/ (exists row, mfor (zseq (List.length (cnames f))) body s = (mkS (with_rows (rows t ++ new ++ [row]) t) bs news, Err)
     /\ Forall2 cell_ok (ctypes t) row
     /\ ~ ((0 <= fr < RowCount f)%Z /\ compat_cols t f (List.length (cnames f)))).
Proof.
  intros W WF ST Hfr FN FZ NI bs s body.
  assert (CZ : Forall2 cell_ok (ctypes t) z).
  { apply Forall2_nth_iff; [eapply Forall2_len; eauto|]. intros i ct v H1 H2.
    destruct (Forall2_nth _ _ _ _ _ FZ H1) as (v' & V & Z). replace v with v' by congruence.
    eapply zero_of_cell_ok; eauto. eapply Forall_nth_error in H1; [|apply (wf_types _ W)]. exact H1. }
  destruct (mfor_cases
     (fun m s1 => exists row, s1 = mkS (with_rows (rows t ++ new ++ [row]) t) bs news
        /\ copied_row (fun p => b <= p) t f m (Z.to_nat fr) row
        /\ (0 < m -> (0 <= fr < RowCount f)%Z) /\ compat_cols t f m)
     (fun s1 => exists row, s1 = mkS (with_rows (rows t ++ new ++ [row]) t) bs news /\ Forall2 cell_ok (ctypes t) row
        /\ ~ ((0 <= fr < RowCount f)%Z /\ compat_cols t f (List.length (cnames f))))
     body (List.length (cnames f)) s) as [(s' & E & row & -> & CR & RG & CC)|(s' & E & row & -> & CR & BAD)].
  - exists z. split; auto. split; [|split; [lia|intros ? ? ? H; lia]]. split; auto.
    intros i cn ct v H1 H2 H3. split; [intros ? H; lia|]. intros _.
    destruct (Forall2_nth _ _ _ _ _ FZ H2) as (v' & V & Z). replace v with v' by congruence. exact Z.
  - intros m s1 Hm (row & -> & [CO CR] & RG & CC). unfold body.
    destruct (nth_error_lt (cnames f) m Hm) as [cn Hcn].
    destruct (wf_type_at _ WF m Hm) as (cf & Hcf & Tcf).
    rewrite bind_reads. cbn [s_tab].
    destruct (ST (new ++ [row])) as (ST1 & ST2 & ST3).
    rewrite ST2, ColName_eq. replace (HasColByColIndex f (Z.of_nat m)) with true by (symmetry; apply HasCol_iff; unfold ColCount; lia).
    rewrite Nat2Z.id, (nth_error_nth _ _ _ Hcn). rewrite bind_reads. cbn [s_tab]. rewrite ST3 by auto.
    rewrite get_at by auto. rewrite Nat2Z.id.
    destruct (Z.leb_spec 0 (Z.of_nat m)) as [_|?]; [|lia]. cbn [andb].
    destruct (Z.leb_spec 0 fr) as [F0|F0].
    2:{ right. eexists. split; [reflexivity|]. exists row. split; auto. split; auto. intros [? _]; lia. }
    destruct (at_cell f m (Z.to_nat fr)) as [v|] eqn:AC.
    2:{ right. eexists. split; [reflexivity|]. exists row. split; auto. split; auto. intros [RR _].
        destruct (wf_at_cell f m (Z.to_nat fr) WF Hm) as (? & ? & _ & _ & X & _); [unfold RowCount in RR; lia|]. congruence. }
    assert (RF : (0 <= fr < RowCount f)%Z).
    { split; auto. apply at_cell_range in AC; auto. unfold RowCount. lia. }
    pose proof (at_cell_ok _ _ _ _ _ WF AC Hcf) as [HT GV].
    set (s1 := mkS _ bs news).
    assert (W1 : wf_table (s_tab s1)).
    { simpl. apply wf_with_rows; auto.
      - rewrite !Forall_app. split; [apply (wf_cells _ W)|]. split; auto.
      - congruence. }
    destruct (SetVal_eq cn (RowCount t + Z.of_nat (List.length new)) v s1 W1) as [(i & ct & NN & RR & N1 & N2 & HTv & E)|[NO E]].
    + left. rewrite E. unfold s1 in N1, N2. simpl in N1, N2.
      destruct (nth_error_lt row i) as [vi Hvi].
      { rewrite <- (Forall2_len _ _ _ CO). eapply nth_error_some_lt; eauto. }
      eexists. split; [reflexivity|]. exists (upd row i v). split.
      { unfold written, s1, on_tab. simpl. f_equal. unfold put.
        replace (Z.to_nat (RowCount t + Z.of_nat (List.length new))) with (List.length (rows t ++ new)).
        2:{ rewrite app_length. unfold RowCount. lia. }
        rewrite app_assoc, nth_error_app2, Nat.sub_diag by lia. cbn [nth_error].
        rewrite upd_app_mid. rewrite <- app_assoc. reflexivity. }
      split; [|split; [auto|]].
      * split.
        { eapply Forall2_upd; eauto. split; auto. }
        intros j cj ctj vj H1 H2 H3. rewrite nth_error_upd in H3. destruct (Nat.eqb_spec i j) as [<-|Hne].
        -- destruct (Nat.ltb i (List.length row)); [|discriminate]. injection H3 as <-.
           assert (cj = cn) by congruence. subst cj. split.
           ++ intros c Hc H. assert (c = m) by (eapply NoDup_nth; [apply (wf_nodup _ WF)|eauto|eauto]). subst. auto.
           ++ intros H. exfalso. apply (H m); auto.
        -- destruct (CR j cj ctj vj H1 H2 H3) as [A B]. split.
           ++ intros c Hc H. destruct (Nat.eq_dec c m) as [->|]; [|apply A; auto; lia].
              exfalso. apply Hne. eapply NoDup_nth; [apply (wf_nodup _ W)| |]; eauto. congruence.
           ++ intros H. apply B. intros c Hc. apply H. lia.
      * intros c cn' ct' Hc H1 H2. destruct (Nat.eq_dec c m) as [->|]; [|apply CC with (c := c); auto; lia].
        assert (cn' = cn) by congruence. assert (ct' = cf) by congruence. subst. exists i, ct. repeat split; auto.
        eapply has_type_fun; eauto.
    + right. rewrite E. eexists. split; [reflexivity|]. exists row. split; auto. split; auto.
      intros [_ C]. apply NO. destruct (C m cn cf Hm Hcn Hcf) as (i & ct & I1 & I2 & SG).
      exists i, ct. repeat split; auto.
      * eapply has_type_not_nil; eauto.
      * unfold RowCount. simpl. lia.
      * unfold RowCount. simpl. rewrite !app_length. simpl. lia.
      * eapply has_type_same; [apply same_go_type_sym; exact SG|exact HT].
  - left. exists row. split; auto. split; auto. split; auto. intros H. apply RG. destruct (cnames f); [congruence|simpl; lia].
  - right. exists row. auto.
Qed.

(** The rows first..last of the source can be appended to t. *)
Definition rows_fit (t f : table) (first last : Z) : Prop :=
  (last < first)%Z \/ cnames f = [] \/
  ((0 <= first)%Z /\ (last < RowCount f)%Z /\ compat_cols t f (List.length (cnames f))).

Lemma copied_row_mono (F G : ptr -> Prop) t f m r row : (forall p, F p -> G p) -> copied_row F t f m r row -> copied_row G t f m r row.
Proof.
  intros FG [C H]. split; auto. intros i cn ct v H1 H2 H3. destruct (H i cn ct v H1 H2 H3) as [A B].
  split; auto. intros X. eapply zero_of_weak; eauto.
Qed.

Lemma with_rows_rows t : with_rows (rows t) t = t.
Proof. apply table_eta. Qed.

Lemma AppendRowsFromTable_spec src s first last :
  let t := s_tab s in let f := src t in
  wf_table t -> wf_table f -> stable src t f last -> is_nil t = false -> is_nil f = false ->
  exists s' new, wf_table (s_tab s') /\ s_base s' = s_base s /\ (exists l, s_news s' = s_news s ++ l)
    /\ s_tab s' = with_rows (rows t ++ new) t /\ Forall (Forall2 cell_ok (ctypes t)) new
    /\ (AppendRowsFromTable src first last s = (s', Ok tt) /\ rows_fit t f first last
         /\ List.length new = Z.to_nat (last - first + 1)
         /\ (forall k row, nth_error new k = Some row ->
               copied_row (fun p => next s <= p) t f (List.length (cnames f)) (Z.to_nat (first + Z.of_nat k)) row)
        \/ AppendRowsFromTable src first last s = (s', Err) /\ ~ rows_fit t f first last).
Proof.
  intros t f W WF ST NT NF.
  unfold AppendRowsFromTable. mstep. fold t. rewrite NT. cbn [negb]. mstep. fold f. rewrite NF. cbn [negb].
  set (n := Z.to_nat (last - first + 1)).
  match goal with |- context [mfor (zseq n) ?b s] => set (body := b) end.
  set (Inv := fun (k : nat) (s1 : st) => exists new l, s1 = mkS (with_rows (rows t ++ new) t) (s_base s) (s_news s ++ l)
      /\ List.length new = k /\ Forall (Forall2 cell_ok (ctypes t)) new
      /\ (forall j row, nth_error new j = Some row ->
            copied_row (fun p => next s <= p) t f (List.length (cnames f)) (Z.to_nat (first + Z.of_nat j)) row)
      /\ (forall j, j < k -> cnames f <> [] -> (0 <= first + Z.of_nat j < RowCount f)%Z)
      /\ (0 < k -> compat_cols t f (List.length (cnames f)))).
  set (Bad := fun s1 => exists new l, s1 = mkS (with_rows (rows t ++ new) t) (s_base s) (s_news s ++ l)
      /\ Forall (Forall2 cell_ok (ctypes t)) new /\ ~ rows_fit t f first last).
  assert (GW : forall new, Forall (Forall2 cell_ok (ctypes t)) new -> wf_table (with_rows (rows t ++ new) t)).
  { intros new FN. apply wf_with_rows; auto; [rewrite Forall_app; split; auto; apply (wf_cells _ W)|congruence]. }
  destruct (mfor_cases Inv Bad body n s) as [(s' & E & new & l & -> & LN & FN & CR & RG & CC)|(s' & E & new & l & -> & FN & BAD)].
  - exists [], []. rewrite !app_nil_r. split.
    { rewrite <- (st_eta s) at 1. f_equal. symmetry. apply with_rows_rows. }
    split; [auto|]. split; [constructor|]. split; [intros [|?] ?; discriminate|]. split; lia.
  - intros k s1 Hk (new & l & -> & LN & FN & CR & RG & CC). unfold body.
    erewrite bind_eq_ok.
    2:{ rewrite AppendRow_eq by (cbn [s_tab]; auto). cbn [s_tab with_rows is_nil]. rewrite NT. reflexivity. }
    rewrite bind_get. unfold row_added. cbn [s_tab with_rows ctypes rows s_base s_news].
    match goal with |- context [zeros ?p _] => set (p0 := p) end.
    rewrite <- app_assoc. change (with_rows ?r (with_rows _ t)) with (with_rows r t).
    destruct (ST (new ++ [zeros p0 (ctypes t)])) as (ST1 & _). rewrite ST1.
    assert (FZ : Forall2 (zero_of (fun p => p0 <= p)) (ctypes t) (zeros p0 (ctypes t))).
    { eapply Forall2_impl; [|apply zeros_spec, (wf_types _ W)]. intros a v. apply zero_of_weak. lia. }
    assert (P0 : next s <= p0). { unfold p0, next. cbn [s_base s_news]. rewrite app_length. lia. }
    rewrite <- app_assoc.
    pose proof (copy_row_loop src t f last (first + Z.of_nat k) p0 (s_news s ++ l ++ repeat true (ntab (ctypes t))) new
                  (zeros p0 (ctypes t)) W WF ST ltac:(lia) FN FZ NT (s_base s)) as CL. cbv zeta in CL. rewrite LN in CL.
    destruct CL as [(row & EL & CRW & RGW & CCW)|(row & EL & CRW & BAD)]; rewrite EL; [left|right]; eexists; (split; [reflexivity|]).
    + exists (new ++ [row]), (l ++ repeat true (ntab (ctypes t))). split; [reflexivity|].
      split; [rewrite app_length; simpl; lia|]. split; [rewrite Forall_app; split; auto; constructor; [apply CRW|constructor]|].
      split; [|split].
      * intros j rw H. destruct (Nat.lt_ge_cases j k).
        -- rewrite nth_error_app1 in H by lia. auto.
        -- rewrite nth_error_app2 in H by lia. destruct (j - List.length new) eqn:EJ; [|destruct n0; discriminate].
           simpl in H. injection H as <-. replace j with k by lia. eapply copied_row_mono; [|exact CRW]. simpl. intros; lia.
      * intros j Hj NE. destruct (Nat.eq_dec j k) as [->|]; [auto|apply RG; auto; lia].
      * auto.
    + exists (new ++ [row]), (l ++ repeat true (ntab (ctypes t))). split; [reflexivity|].
      split; [rewrite Forall_app; split; auto|].
      intros [X|[X|(X & Y & Z)]].
      * lia.
      * rewrite X in EL. discriminate EL.
      * apply BAD. split; auto. lia.
  - exists (mkS (with_rows (rows t ++ new) t) (s_base s) (s_news s ++ l)), new. split; [exact (GW new FN)|]. split; [reflexivity|]. split; [exists l; reflexivity|]. split; [reflexivity|].
    split; [exact FN|]. left. split; [exact E|]. split; [|split; auto].
    destruct (Z.lt_ge_cases last first); [now left|]. right.
    destruct (cnames f) as [|c0 cs] eqn:EC; [now left|]. right.
    assert (0 < n) by lia.
    assert (R0 := RG 0 ltac:(lia) ltac:(discriminate)). assert (R1 := RG (n - 1) ltac:(lia) ltac:(discriminate)).
    split; [lia|]. split; [lia|]. apply CC. lia.
  - exists (mkS (with_rows (rows t ++ new) t) (s_base s) (s_news s ++ l)), new. split; [exact (GW new FN)|]. split; [reflexivity|]. split; [exists l; reflexivity|]. split; [reflexivity|].
    split; [exact FN|]. right. auto.
Qed.

Lemma stable_const t f last : stable (fun _ => f) t f last.
Proof. intros new. simpl. auto. Qed.

Lemma stable_id t last : wf_table t -> is_nil t = false -> (last < RowCount t)%Z -> stable (fun x => x) t t last.
Proof.
  intros W N H new. simpl. split; [auto|]. split; [reflexivity|]. intros c r Hr.
  unfold GetValByColIndex. cbn [with_rows is_nil]. rewrite N.
  destruct (Z.lt_ge_cases r 0) as [R|R].
  - assert (X : forall t, HasRow t r = false).
    { intros t0. apply not_true_is_false. rewrite HasRow_iff. lia. }
    now rewrite !X.
  - replace (HasRow (with_rows (rows t ++ new) t) r) with true.
    2:{ symmetry. apply HasRow_iff. unfold RowCount in *. simpl. rewrite app_length. lia. }
    replace (HasRow t r) with true by (symmetry; apply HasRow_iff; lia).
    change (HasColByColIndex (with_rows (rows t ++ new) t) c) with (HasColByColIndex t c).
    cbn [negb]. destruct (HasColByColIndex t c); [|reflexivity]. cbn [negb].
    rewrite !cell_at. unfold at_cell. cbn [with_rows rows]. rewrite nth_error_app1; [reflexivity|].
    unfold RowCount in H. lia.
Qed.

(** ---------- building new tables ---------- *)

Lemma wf_nil_table : wf_table NewNilTable.
Proof.
  constructor; simpl; auto; try constructor.
  - intros H. discriminate.
  - destruct i; discriminate.
Qed.

Lemma SetName_eq n s : SetName n s = if IsValidTableName n then (on_tab (fun t => with_nil false (with_name n t)) s, Ok tt) else (s, Err).
Proof. unfold SetName. mstep. destruct (IsValidTableName n); [|reflexivity]. mstep. reflexivity. Qed.

Lemma named_wf n t : wf_table t -> valid_name n -> wf_table (with_nil false (with_name n t)).
Proof. intros W H. destruct W. constructor; simpl; auto. Qed.

Lemma missing_nil cols : missing [] cols = cols.
Proof. unfold missing. induction cols as [|c cs IH]; simpl; auto. f_equal; exact IH. Qed.

Lemma sname_cases t : wf_table t -> is_nil t = false -> IsValidTableName (tname t) = true.
Proof. intros W N. apply IsValidTableName_spec. destruct (wf_name _ W) as [[_ H]|[H _]]; auto. congruence. Qed.

(** SetName and AppendColsFromTable on a new table: the columns of t. *)
Lemma new_cols t name b (k : M unit) : wf_table t ->
  if IsValidTableName name && negb (is_nil t) then
    exists t1, fresh_table name t1 /\ cnames t1 = cnames t /\ ctypes t1 = ctypes t /\ rows t1 = []
      /\ exists l, (SetName name ;;; AppendColsFromTable (fun _ => t) ;;; k) (mkS NewNilTable b []) = k (mkS t1 b l)
  else exists s', (SetName name ;;; AppendColsFromTable (fun _ => t) ;;; k) (mkS NewNilTable b []) = (s', Err).
Proof.
  intros W. destruct (IsValidTableName name) eqn:EN; cbn [andb].
  2:{ eexists. erewrite bind_eq_err; [reflexivity|]. rewrite SetName_eq, EN. reflexivity. }
  apply IsValidTableName_spec in EN as VN.
  set (s1 := on_tab (fun t => with_nil false (with_name name t)) (mkS NewNilTable b [])).
  assert (W1 : wf_table (s_tab s1)) by (apply named_wf; auto using wf_nil_table).
  assert (E1 : forall A (k : M A), (SetName name ;;; k) (mkS NewNilTable b []) = k s1).
  { intros A k0. erewrite bind_eq_ok; [reflexivity|]. rewrite SetName_eq, EN. reflexivity. }
  rewrite E1. destruct (is_nil t) eqn:NT; cbn [negb].
  - eexists. erewrite bind_eq_err; [reflexivity|]. rewrite AppendColsFromTable_eq by auto. simpl. now rewrite NT.
  - destruct (wf_cols_of _ W) as (L1 & L2 & L3 & L4 & L5).
    destruct (absorb_loop (cols_of t) s1) as (s' & extra & W' & BS & [l NW] & CE & H); auto.
    assert (AG : agree_types (s_tab s1) (cols_of t)).
    { intros cn ct i ct' _ H1. simpl in H1. destruct i; discriminate. }
    destruct H as [(E & _ & EX)|(E & NA)]; [|contradiction].
    assert (ME : missing (cnames (s_tab s1)) (cols_of t) = cols_of t) by (simpl; apply missing_nil).
    rewrite ME in EX. subst extra. destruct CE as [[B1 B2 B3 B4 B5 B6] CN CT CR].
    exists (s_tab s'). split; [constructor; auto|].
    split; [rewrite CN, L2; reflexivity|]. split; [rewrite CT, L3; reflexivity|].
    split; [inversion CR; reflexivity|].
    exists (s_news s'). erewrite bind_eq_ok.
    2:{ rewrite AppendColsFromTable_eq by auto. simpl is_nil. cbn iota. rewrite NT. exact E. }
    f_equal. rewrite <- (st_eta s') at 1. f_equal. rewrite BS. reflexivity.
Qed.

Lemma compat_same t1 t m : wf_table t -> cnames t1 = cnames t -> ctypes t1 = ctypes t -> compat_cols t1 t m.
Proof.
  intros W EN ET c cn ct Hc H1 H2. exists c, ct. rewrite EN, ET. split; auto. split; auto. now left.
Qed.

Lemma copied_same F t1 t r row : wf_table t -> cnames t1 = cnames t -> ctypes t1 = ctypes t ->
  r < List.length (rows t) ->
  copied_row F t1 t (List.length (cnames t)) r row -> nth_error (rows t) r = Some row.
Proof.
  intros W EN ET HR [C H]. destruct (nth_error_lt (rows t) r HR) as [row0 E0]. rewrite E0. f_equal. apply nth_error_ext. intros i.
  pose proof (wf_row_len _ W _ _ E0) as L0. pose proof (Forall2_len _ _ _ C) as LC. rewrite ET, (wf_types_len _ W) in LC.
  destruct (nth_error row i) as [v|] eqn:Ev.
  - assert (Hi : i < List.length (cnames t)) by (apply nth_error_some_lt in Ev; lia).
    destruct (nth_error_lt (cnames t) i Hi) as [cn Hcn]. destruct (wf_type_at _ W i Hi) as (ct & Hct & _).
    destruct (H i cn ct v) as [A _]; try congruence.
    specialize (A i Hi Hcn). unfold at_cell in A. rewrite E0 in A. exact A.
  - apply nth_error_None in Ev. apply nth_error_None. lia.
Qed.

Lemma copied_range F t1 t first last new : wf_table t -> cnames t1 = cnames t -> ctypes t1 = ctypes t ->
  List.length new = Z.to_nat (last - first + 1) ->
  (forall k row, nth_error new k = Some row ->
     copied_row F t1 t (List.length (cnames t)) (Z.to_nat (first + Z.of_nat k)) row) ->
  (last < first)%Z \/ (0 <= first)%Z /\ (last < RowCount t)%Z -> new = row_range t first last.
Proof.
  intros W EN ET LN H R. unfold row_range. apply nth_error_ext. intros k. rewrite nth_error_firstn, nth_error_skipn.
  destruct (Nat.ltb_spec k (Z.to_nat (last - first + 1))) as [Hk|Hk].
  - rewrite <- LN in Hk. destruct (nth_error_lt new k Hk) as [row Hrow]. rewrite Hrow. symmetry.
    replace (Z.to_nat first + k) with (Z.to_nat (first + Z.of_nat k)) by lia.
    eapply copied_same; eauto. unfold RowCount in R. lia.
  - apply nth_error_None. lia.
Qed.

Lemma rows_fit_same t1 t first last : wf_table t -> cnames t1 = cnames t -> ctypes t1 = ctypes t ->
  rows_fit t1 t first last <-> (last < first)%Z \/ cnames t = [] \/ ((0 <= first)%Z /\ (last < RowCount t)%Z).
Proof.
  intros W EN ET. unfold rows_fit. split; intros [H|[H|H]]; auto.
  - right; right; tauto.
  - right; right. destruct H. repeat split; auto. eapply compat_same; eauto.
Qed.

(** NewTableFromRows *)
Lemma NewTableFromRows_spec t name first last b : wf_table t ->
  (valid_name name /\ is_nil t = false /\ ((last < first)%Z \/ cnames t = [] \/ ((0 <= first)%Z /\ (last < RowCount t)%Z))
   /\ exists t' l, NewTableFromRows t name first last (mkS NewNilTable b []) = (mkS t' b l, Ok tt)
      /\ fresh_table name t' /\ cnames t' = cnames t /\ ctypes t' = ctypes t
      /\ List.length (rows t') = Z.to_nat (last - first + 1)
      /\ ((last < first)%Z \/ (0 <= first)%Z /\ (last < RowCount t)%Z -> rows t' = row_range t first last))
  \/ (~ (valid_name name /\ is_nil t = false /\ ((last < first)%Z \/ cnames t = [] \/ ((0 <= first)%Z /\ (last < RowCount t)%Z)))
      /\ exists s', NewTableFromRows t name first last (mkS NewNilTable b []) = (s', Err)).
Proof.
  intros W. unfold NewTableFromRows. pose proof (new_cols t name b (AppendRowsFromTable (fun _ => t) first last) W) as H.
  destruct (IsValidTableName name) eqn:EN; cbn [andb] in H.
  2:{ right. split; auto. intros [V _]. apply IsValidTableName_spec in V. congruence. }
  apply IsValidTableName_spec in EN.
  destruct (is_nil t) eqn:NT; cbn [negb] in H.
  { right. split; auto. intros (_ & X & _). congruence. }
  destruct H as (t1 & FT & C1 & C2 & C3 & l & E).
  destruct (AppendRowsFromTable_spec (fun _ => t) (mkS t1 b l) first last) as (s' & new & W' & BS & _ & TB & FN & H);
    simpl; auto using stable_const; try apply FT.
  cbn [s_tab] in *. rewrite E.
  destruct H as [(EA & RF & LN & CP)|(EA & NF)].
  - left. apply rows_fit_same in RF; auto. split; auto. split; auto. split; auto.
    exists (s_tab s'), (s_news s'). split. { rewrite EA. f_equal. rewrite <- (st_eta s') at 1. f_equal. exact BS. }
    rewrite TB in *. rewrite C3. simpl. rewrite <- C1, <- C2. destruct FT. split; [constructor; auto; simpl; auto|].
    + rewrite C3 in W'. exact W'.
    + split; [auto|]. split; [auto|]. split; [exact LN|]. intros R. eapply copied_range; eauto.
  - right. split; [|eauto]. rewrite rows_fit_same in NF by auto. tauto.
Qed.

Lemma row_range_all t : row_range t 0 (RowCount t - 1) = rows t.
Proof. unfold row_range, RowCount. simpl. rewrite firstn_all2; auto. lia. Qed.

Lemma Copy_body_spec t b : wf_table t ->
  (is_nil t = false /\ exists t' l, Copy_body t (mkS NewNilTable b []) = (mkS t' b l, Ok tt)
      /\ fresh_table (tname t) t' /\ cnames t' = cnames t /\ ctypes t' = ctypes t /\ rows t' = rows t)
  \/ (is_nil t = true /\ exists s', Copy_body t (mkS NewNilTable b []) = (s', Err)).
Proof.
  intros W. destruct (is_nil t) eqn:NT.
  { right. split; auto. unfold Copy_body. pose proof (new_cols t (tname t) b (if (RowCount t >? 0)%Z then AppendRowsFromTable (fun _ => t) 0 (RowCount t - 1) else ret tt) W) as H.
    rewrite NT in H. rewrite andb_false_r in H. exact H. }
  left. split; auto. unfold Copy_body. destruct (Z.gtb_spec (RowCount t) 0) as [G|G].
  - destruct (NewTableFromRows_spec t (tname t) 0 (RowCount t - 1) b W) as [(_ & _ & _ & t' & l & E & FT & C1 & C2 & _ & RR)|[NO _]].
    + exists t', l. split; [exact E|]. split; auto. split; auto. split; auto. rewrite RR, row_range_all by lia. reflexivity.
    + exfalso. apply NO. split; [apply IsValidTableName_spec, sname_cases; auto|]. split; auto. right; right; lia.
  - pose proof (new_cols t (tname t) b (ret tt) W) as H. rewrite NT, (sname_cases t W NT) in H. cbn [andb negb] in H.
    destruct H as (t1 & FT & C1 & C2 & C3 & l & E). exists t1, l. rewrite E. split; [reflexivity|].
    split; auto. split; auto. split; auto. rewrite C3. unfold RowCount in G. destruct (rows t); [reflexivity|simpl in G; lia].
Qed.

Lemma CopyCols_body_spec t b : wf_table t ->
  (is_nil t = false /\ exists t' l, CopyCols_body t (mkS NewNilTable b []) = (mkS t' b l, Ok tt)
      /\ fresh_table (tname t) t' /\ cnames t' = cnames t /\ ctypes t' = ctypes t /\ rows t' = [])
  \/ (is_nil t = true /\ exists s', CopyCols_body t (mkS NewNilTable b []) = (s', Err)).
Proof.
  intros W. pose proof (new_cols t (tname t) b (ret tt) W) as H. unfold CopyCols_body.
  assert (X : forall s, (SetName (tname t) ;;; AppendColsFromTable (fun _ => t)) s = (SetName (tname t) ;;; AppendColsFromTable (fun _ => t) ;;; ret tt) s).
  { intros s. unfold bind. destruct (SetName _ s) as [s1 [?| |]]; auto.
    destruct (AppendColsFromTable _ s1) as [s2 [[]| |]]; reflexivity. }
  rewrite X. destruct (is_nil t) eqn:NT.
  - right. split; auto. rewrite andb_false_r in H. exact H.
  - left. split; auto. rewrite (sname_cases t W NT) in H. cbn [andb negb] in H.
    destruct H as (t1 & FT & C1 & C2 & C3 & l & E). exists t1, l. rewrite E. auto.
Qed.

(** ---------- NewTableReorderCols* ---------- *)

(** The first m columns of t in the given order, [rs] being the rows. *)
Record partly (t : table) (order : list Z) (m : nat) (rs : list (list value)) (t1 : table) : Prop := {
  pa_ft : fresh_table (tname t) t1;
  pa_names : cnames t1 = firstn m (permute order "" (cnames t));
  pa_types : ctypes t1 = firstn m (permute order "" (ctypes t));
  pa_rows : rows t1 = rs }.

Lemma firstn_S_nth {A} (l : list A) k x : nth_error l k = Some x -> firstn (S k) l = firstn k l ++ [x].
Proof. apply firstn_nth. Qed.

Lemma nth_error_permute {A} order (d : A) l i : nth_error (permute order d l) i = option_map (fun z => nth (Z.to_nat z) l d) (nth_error order i).
Proof. unfold permute. apply nth_error_map. Qed.

Lemma Forall2_firstn' {A B} (P : A -> B -> Prop) n la lb : Forall2 P la lb -> Forall2 P (firstn n la) (firstn n lb).
Proof. intros H. revert n. induction H; intros [|n]; simpl; constructor; auto. Qed.
Lemma In_firstn' {A} n (l : list A) x : In x (firstn n l) -> In x l.
Proof. revert n. induction l; intros [|n]; simpl; try tauto. intros [H|H]; eauto. Qed.

Lemma fill_col t order m t1 bs nw cn ct z :
  wf_table t -> Permutation order (zseq (List.length (cnames t))) -> is_nil t = false ->
  nth_error order m = Some z -> cn = nth (Z.to_nat z) (cnames t) "" -> ct = nth (Z.to_nat z) (ctypes t) "" ->
  partly t order (S m) (mapi (fun r row => firstn m (permute order VNil row) ++ [zcol ct nw r]) 0 (rows t)) t1 -> forall l,
  exists t2, mfor (zseq (List.length (rows t))) (fun ri => let* v := lift (cell t z ri) in set_cell (Z.of_nat m) ri v) (mkS t1 bs l)
    = (mkS t2 bs l, Ok tt) /\ partly t order (S m) (map (fun row => firstn (S m) (permute order VNil row)) (rows t)) t2.
Proof.
  intros W PM NT HZ -> -> P l.
  assert (RG : (0 <= z < Z.of_nat (List.length (cnames t)))%Z).
  { pose proof (order_range _ _ PM) as F. eapply Forall_nth_error in F; eauto. }
  assert (LO : List.length order = List.length (cnames t)).
  { apply Permutation_length in PM. now rewrite zseq_length in PM. }
  assert (HM : m < List.length order) by (eapply nth_error_some_lt; eauto).
  set (ct := nth (Z.to_nat z) (ctypes t) "") in *.
  destruct (wf_type_at _ W (Z.to_nat z) ltac:(lia)) as (ct0 & HC & IC).
  assert (ct0 = ct) by (symmetry; apply nth_error_nth; auto). subst ct0.
  set (F := fun row : list value => firstn (S m) (permute order VNil row)).
  set (G := fun r row => firstn m (permute order VNil row) ++ [zcol ct nw r]).
  assert (LF : forall r row, nth_error (rows t) r = Some row -> List.length (G r row) = S m).
  { intros r row _. unfold G. rewrite app_length, firstn_length, permute_length. simpl. lia. }
  destruct (mfor_inv
    (fun k s1 => exists t2, s1 = mkS t2 bs l /\ partly t order (S m) (map F (firstn k (rows t)) ++ mapi G k (skipn k (rows t))) t2)
    (fun ri => let* v := lift (cell t z ri) in set_cell (Z.of_nat m) ri v) (List.length (rows t)) (mkS t1 bs l)) as (s' & E & t2 & -> & P2).
  - exists t1. split; auto.
  - intros k s1 Hk (t2 & -> & [FT CN CT CR]).
    destruct (nth_error_lt (rows t) k Hk) as [row Hrow].
    pose proof (Forall_nth_error _ _ _ _ (wf_cells _ W) Hrow) as FR.
    destruct (Forall2_nth _ _ _ _ _ FR HC) as (v & Hv & CV).
    mstep. rewrite cell_at. replace ((0 <=? Z.of_nat k) && (0 <=? z))%Z with true by (symmetry; apply andb_true_iff; lia).
    rewrite Nat2Z.id. unfold at_cell. rewrite Hrow, Hv.
    assert (SK : skipn k (rows t) = row :: skipn (S k) (rows t)) by (apply skipn_nth; auto).
    assert (LK : List.length (map F (firstn k (rows t))) = k) by (rewrite map_length, firstn_length; lia).
    rewrite SK in CR. cbn [mapi] in CR.
    erewrite set_cell_nat; cbn [s_tab]; [| rewrite CR, nth_error_app2, LK, Nat.sub_diag by lia; reflexivity |].
    2:{ rewrite (LF k row Hrow). lia. }
    assert (EU : upd (G k row) m v = F row).
    { unfold G, F. assert (LL : List.length (firstn m (permute order VNil row)) = m) by (rewrite firstn_length, permute_length; lia).
      rewrite <- LL at 2. rewrite upd_app_mid. symmetry. apply firstn_S_nth. rewrite nth_error_permute, HZ. simpl. f_equal.
      apply nth_error_nth. exact Hv. }
    eexists. split; [reflexivity|].
    exists (with_rows (map F (firstn (S k) (rows t)) ++ mapi G (S k) (skipn (S k) (rows t))) t2). split.
    + unfold on_tab. cbn [s_tab s_base s_news]. do 2 f_equal. rewrite CR.
      assert (UU : forall x y rest, upd (map F (firstn k (rows t)) ++ y :: rest) k x = map F (firstn k (rows t)) ++ x :: rest).
      { intros x y rest. rewrite <- LK at 2. apply upd_app_mid. }
      rewrite UU, EU. rewrite (firstn_S_nth _ _ _ Hrow), map_app, <- app_assoc. reflexivity.
    + constructor; auto. destruct FT. constructor; auto. apply wf_with_rows; [auto| |simpl; congruence].
      rewrite Forall_forall. intros r Hr. apply in_app_or in Hr. rewrite CT.
      assert (FM : forall row0, In row0 (rows t) -> Forall2 cell_ok (firstn (S m) (permute order "" (ctypes t))) (F row0)).
      { intros row0 H0. unfold F. apply Forall2_firstn'. apply permute_Forall2.
        - pose proof (wf_cells _ W) as WC. rewrite Forall_forall in WC. auto.
        - rewrite (wf_types_len _ W). apply order_range; auto. }
      destruct Hr as [Hr|Hr].
      * apply in_map_iff in Hr as (row0 & <- & H0). apply FM. eapply In_firstn'; eauto.
      * apply In_nth_error in Hr as [j Hj]. rewrite nth_error_mapi in Hj.
        destruct (nth_error (skipn (S k) (rows t)) j) as [row0|] eqn:E0; [|discriminate]. injection Hj as <-.
        rewrite nth_error_skipn in E0. unfold G.
        rewrite (firstn_S_nth _ m ct) by (rewrite nth_error_permute, HZ; reflexivity).
        apply Forall2_app.
        -- apply Forall2_firstn'. apply permute_Forall2.
           ++ eapply Forall_nth_error; [apply (wf_cells _ W)|eauto].
           ++ rewrite (wf_types_len _ W). apply order_range; auto.
        -- constructor; [|constructor]. apply zcol_ok. auto.
  - exists t2. split; auto. rewrite firstn_all, skipn_all in P2. simpl in P2. rewrite app_nil_r in P2. exact P2.
Qed.

Lemma mfor_list_inv {A} (l : list A) (P : nat -> st -> Prop) body : forall s, P 0 s ->
  (forall k x s1, nth_error l k = Some x -> P k s1 -> exists s2, body x s1 = (s2, Ok tt) /\ P (S k) s2) ->
  exists s', mfor l body s = (s', Ok tt) /\ P (List.length l) s'.
Proof.
  revert P. induction l as [|x l IH]; intros P s H0 H; simpl.
  - exists s. split; auto.
  - destruct (H 0 x s eq_refl H0) as (s2 & E & P2).
    destruct (IH (fun k => P (S k)) s2 P2) as (s' & E' & P').
    { intros k y s1 Hk. apply (H (S k)). exact Hk. }
    exists s'. split; auto. rewrite (bind_eq_ok _ _ _ _ _ E). exact E'.
Qed.

Lemma NoDup_Permutation_bis' {A} (l l' : list A) : NoDup l -> List.length l' <= List.length l -> incl l l' -> Permutation l l'.
Proof. apply NoDup_Permutation_bis. Qed.

Lemma skip_combine {A B} (la : list A) (lb : list B) k a b :
  nth_error la k = Some a -> nth_error lb k = Some b -> nth_error (combine la lb) k = Some (a, b).
Proof. intros H1 H2. rewrite nth_error_combine, H1, H2. reflexivity. Qed.

Lemma zero_rows_nil p n : zero_rows p [] n = repeat [] n.
Proof. revert p. induction n; intros p; simpl; [reflexivity|]. f_equal. apply IHn. Qed.

Lemma NewTableReorderColsByColIndex_spec t order b : wf_table t ->
  (is_nil t = false /\ Permutation order (zseq (List.length (cnames t)))
   /\ exists t' l, NewTableReorderColsByColIndex t order (mkS NewNilTable b []) = (mkS t' b l, Ok tt)
      /\ fresh_table (tname t) t' /\ cnames t' = permute order "" (cnames t) /\ ctypes t' = permute order "" (ctypes t)
      /\ rows t' = map (permute order VNil) (rows t))
  \/ (~ (is_nil t = false /\ Permutation order (zseq (List.length (cnames t))))
      /\ exists s', NewTableReorderColsByColIndex t order (mkS NewNilTable b []) = (s', Err)).
Proof.
  intros W. unfold NewTableReorderColsByColIndex. mstep.
  destruct (Nat.eqb_spec (List.length order) (List.length (cnames t))) as [LO|LO].
  2:{ right. split; [|eauto]. intros [_ P]. apply Permutation_length in P. rewrite zseq_length in P. auto. }
  mstep. destruct (valid_order (List.length (cnames t)) order) eqn:VO.
  2:{ right. split; [|eauto]. intros [_ P]. apply valid_order_spec in P. congruence. }
  apply valid_order_spec in VO as PM. mstep.
  destruct (is_nil t) eqn:NT.
  { right. split; [intros [X _]; discriminate|]. destruct (wf_name _ W) as [[X _]|(_ & X & _)]; [congruence|].
    rewrite X. eexists. erewrite bind_eq_err; [reflexivity|]. reflexivity. }
  left. split; auto. split; auto.
  erewrite bind_eq_ok. 2:{ rewrite SetName_eq, sname_cases by auto. reflexivity. }
  set (s1 := on_tab _ _).
  assert (W1 : wf_table (s_tab s1)).
  { apply named_wf; [apply wf_nil_table|]. apply IsValidTableName_spec, sname_cases; auto. }
  erewrite bind_eq_ok.
  2:{ rewrite AppendRows_eq by auto. simpl is_nil. cbn iota. destruct (Z.ltb_spec (RowCount t) 0) as [X|_]; [unfold RowCount in X; lia|]. reflexivity. }
  set (s2 := rows_added _ s1).
  assert (FT2 : partly t order 0 (map (fun row => firstn 0 (permute order VNil row)) (rows t)) (s_tab s2)).
  { constructor; try reflexivity.
    - constructor; try reflexivity. apply rows_added_wf; auto.
    - unfold s2, rows_added, s1. simpl. rewrite zero_rows_nil. unfold RowCount. rewrite Nat2Z.id.
      induction (rows t); simpl; auto. f_equal; auto. }
  destruct (mfor_list_inv (combine (zseq (List.length (cnames t))) order)
     (fun m s => exists t1 l, s = mkS t1 b l /\ partly t order m (map (fun row => firstn m (permute order VNil row)) (rows t)) t1)
     (fun p => let '(oldi, newi) := p in
       let* cn := lift (ColName t newi) in
       let* ct := lift (ColTypeByColIndex t newi) in
       AppendCol cn ct ;;;
       mfor (zseq (List.length (rows t))) (fun ri => let* v := lift (cell t newi ri) in set_cell oldi ri v)) s2) as (s' & E & t' & l & -> & P).
  - exists (s_tab s2), (s_news s2). split; [|auto]. reflexivity.
  - intros m [oldi z] s3 Hm (t1 & l & -> & P). rewrite nth_error_combine, nth_error_zseq in Hm.
    destruct (Nat.ltb_spec m (List.length (cnames t))) as [Hlt|]; [|discriminate].
    destruct (nth_error order m) as [z0|] eqn:HZ; [|discriminate]. injection Hm as <- <-.
    assert (RG : (0 <= z0 < Z.of_nat (List.length (cnames t)))%Z).
    { pose proof (order_range _ _ PM) as F. eapply Forall_nth_error in F; eauto. }
    assert (HC : HasColByColIndex t z0 = true) by (apply HasCol_iff; unfold ColCount; lia).
    mstep. rewrite ColName_eq, HC. mstep. rewrite ColTypeByColIndex_eq, HC by auto.
    destruct (wf_type_at _ W (Z.to_nat z0) ltac:(lia)) as (ct & HCT & ICT). rewrite HCT. mstep.
    destruct (nth_error_lt (cnames t) (Z.to_nat z0) ltac:(lia)) as [cn HCN].
    rewrite (nth_error_nth _ _ "" HCN). destruct P as [FT CN CT CR].
    assert (VCN : valid_name cn) by (eapply Forall_nth_error in HCN; [|apply (wf_colnames _ W)]; auto).
    assert (NIN : ~ In cn (cnames t1)).
    { rewrite CN. intros I. apply In_nth_error in I as [j Hj]. rewrite nth_error_firstn in Hj.
      destruct (Nat.ltb_spec j m) as [Hjm|]; [|discriminate]. rewrite nth_error_permute in Hj.
      destruct (nth_error order j) as [zj|] eqn:HZJ; [|discriminate]. simpl in Hj. injection Hj as Hj.
      assert (RGJ : (0 <= zj < Z.of_nat (List.length (cnames t)))%Z).
      { pose proof (order_range _ _ PM) as F. eapply Forall_nth_error in F; eauto. }
      destruct (nth_error_lt (cnames t) (Z.to_nat zj) ltac:(lia)) as [cn' HCN'].
      rewrite (nth_error_nth _ _ "" HCN') in Hj. subst cn'.
      assert (Z.to_nat zj = Z.to_nat z0) by (eapply NoDup_nth; [apply (wf_nodup _ W)| |]; eauto).
      assert (zj = z0) by lia. subst zj.
      assert (NoDup order).
      { eapply Permutation_NoDup; [apply Permutation_sym, PM|]. unfold zseq. apply FinFun.Injective_map_NoDup; [intros x y; apply Nat2Z.inj|apply seq_NoDup]. }
      assert (j = m) by (eapply NoDup_nth; eauto). lia. }
    assert (CA : can_append_col t1 cn ct = true).
    { unfold can_append_col. rewrite (ft_nil _ _ FT), (proj2 (IsValidColName_spec cn) VCN), (proj2 (IsValidColType_spec ct) ICT).
      rewrite (proj2 (wf_mget_none _ (ft_wf _ _ FT) cn) NIN). reflexivity. }
    erewrite bind_eq_ok. 2:{ rewrite AppendCol_eq by apply FT. cbn [s_tab]. rewrite CA. reflexivity. }
    assert (W4 : wf_table (s_tab (col_added cn ct (mkS t1 b l)))) by (apply col_added_wf; [apply FT|exact CA]).
    unfold col_added in *. cbn [s_tab s_base s_news] in *.
    match goal with |- context [mfor _ _ (mkS ?tt b ?ll)] => set (t4 := tt) in *; set (l4 := ll) end.
    destruct (fill_col t order m t4 b (next (mkS t1 b l)) cn ct z0) with (l := l4) as (t5 & E5 & P5); auto.
    + symmetry. now apply nth_error_nth.
    + symmetry. now apply nth_error_nth.
    + constructor.
      * destruct FT. constructor; auto.
      * unfold t4. simpl. rewrite CN. symmetry. apply firstn_S_nth. rewrite nth_error_permute, HZ. simpl. f_equal. now apply nth_error_nth.
      * unfold t4. simpl. rewrite CT. symmetry. apply firstn_S_nth. rewrite nth_error_permute, HZ. simpl. f_equal. now apply nth_error_nth.
      * unfold t4. cbn [rows]. rewrite CR, mapi_map. reflexivity.
    + rewrite E5. eexists. split; [reflexivity|]. exists t5, l4. split; auto.
  - rewrite combine_length, zseq_length, LO, Nat.min_id in P. destruct P as [FT CN CT CR].
    exists t', l. split; [exact E|]. split; auto.
    rewrite firstn_all2 in CN by (rewrite permute_length; lia).
    rewrite firstn_all2 in CT by (rewrite permute_length; lia).
    split; auto. split; auto. rewrite CR. apply map_ext. intros row. apply firstn_all2. rewrite permute_length. lia.
Qed.

Lemma NewTableReorderCols_spec t names b : wf_table t ->
  (is_nil t = false /\ Permutation names (cnames t)
   /\ exists order t' l, Forall2 (fun n z => (0 <= z)%Z /\ nth_error (cnames t) (Z.to_nat z) = Some n) names order
      /\ NewTableReorderCols t names (mkS NewNilTable b []) = (mkS t' b l, Ok tt)
      /\ fresh_table (tname t) t' /\ cnames t' = names /\ ctypes t' = permute order "" (ctypes t)
      /\ rows t' = map (permute order VNil) (rows t))
  \/ (~ (is_nil t = false /\ Permutation names (cnames t))
      /\ exists s', NewTableReorderCols t names (mkS NewNilTable b []) = (s', Err)).
Proof.
  intros W. unfold NewTableReorderCols. mstep.
  destruct (Nat.eqb_spec (List.length names) (List.length (cnames t))) as [LN|LN].
  2:{ right. split; [|eauto]. intros [_ P]. apply Permutation_length in P. auto. }
  mstep. destruct (mapM_ColIndex t names W) as [(order & EO & FO)|[EO NO]]; rewrite EO.
  2:{ right. split; [|eauto]. intros [_ P]. apply NO. intros n Hn. eapply Permutation_in; eauto. }
  assert (PN : permute order "" (cnames t) = names).
  { unfold permute. clear -FO. induction FO as [|n z ns os [H0 H] HF IH]; simpl; auto. f_equal; auto. now apply nth_error_nth. }
  destruct (NewTableReorderColsByColIndex_spec t order b W) as [(NT & PM & t' & l & E & FT & CN & CT & CR)|[NO (s' & E)]].
  - left. split; auto. split. { rewrite <- PN. now apply permute_perm. }
    exists order, t', l. split; auto. split; auto. split; auto. split; [congruence|auto].
  - right. split; [|eauto]. intros [NT PM]. apply NO. split; auto.
    apply NoDup_Permutation_bis'.
    + apply (NoDup_map_inv (fun z => nth (Z.to_nat z) (cnames t) "")). unfold permute in PN. rewrite PN.
      eapply Permutation_NoDup; [apply Permutation_sym, PM|apply (wf_nodup _ W)].
    + rewrite zseq_length. rewrite <- (Forall2_len _ _ _ FO). lia.
    + intros z Hz. apply In_zseq. apply In_nth_error in Hz as [k Hk].
      destruct (Forall2_nth_r _ _ _ _ _ FO Hk) as (n & _ & Z0 & Hn). apply nth_error_some_lt in Hn. lia.
Qed.

(** ---------- in terms of reads ---------- *)

Lemma rows_copied_of t f new first n (F : ptr -> Prop) : wf_table t -> wf_table f -> wf_table (with_rows (rows t ++ new) t) ->
  List.length new = n -> is_nil f = false ->
  (forall k row, nth_error new k = Some row ->
     copied_row F t f (List.length (cnames f)) (Z.to_nat (first + Z.of_nat k)) row) ->
  (cnames f <> [] -> n = 0 \/ (0 <= first)%Z /\ (first + Z.of_nat n - 1 < RowCount f)%Z) ->
  rows_copied F t (with_rows (rows t ++ new) t) f first (Z.of_nat n).
Proof.
  intros W WF W' LN NF H R. constructor.
  - apply same_header_rows.
  - unfold RowCount. simpl. rewrite app_length. lia.
  - intros c r Hr. rewrite !get_at by auto. unfold at_cell. simpl.
    destruct (Z.leb_spec 0 c); simpl; auto. destruct (Z.leb_spec 0 r); simpl; auto.
    rewrite nth_error_app1 by (unfold RowCount in Hr; lia). reflexivity.
  - intros cn c c' k [C0 HC] [C0' HC'] Hk.
    destruct (nth_error_lt new (Z.to_nat k)) as [row Hrow]; [lia|].
    destruct (H _ _ Hrow) as [CO CP].
    assert (HL : Z.to_nat c < List.length (cnames t)) by (eapply nth_error_some_lt; eauto).
    destruct (wf_type_at _ W _ HL) as (ct & HT & _).
    destruct (Forall2_nth _ _ _ _ _ CO HT) as (v & Hv & _).
    destruct (CP _ _ _ _ HC HT Hv) as [A _].
    specialize (A (Z.to_nat c') ltac:(eapply nth_error_some_lt; eauto) HC').
    rewrite Z2Nat.id in A by lia.
    assert (NE : cnames f <> []) by (intros X; rewrite X in HC'; destruct (Z.to_nat c'); discriminate).
    assert (0 <= first)%Z by (destruct (R NE); lia).
    rewrite !get_at by auto. rewrite A.
    replace ((0 <=? c) && (0 <=? RowCount t + k))%Z with true by (symmetry; apply andb_true_iff; unfold RowCount; lia).
    replace ((0 <=? c') && (0 <=? first + k))%Z with true by (symmetry; apply andb_true_iff; lia).
    unfold at_cell. cbn [with_rows rows]. rewrite nth_error_app2 by (unfold RowCount; lia).
    replace (Z.to_nat (RowCount t + k) - List.length (rows t)) with (Z.to_nat k) by (unfold RowCount; lia).
    rewrite Hrow, Hv. eauto.
  - intros cn ct c k [C0 HC] NI Hk HT.
    destruct (nth_error_lt new (Z.to_nat k)) as [row Hrow]; [lia|].
    destruct (H _ _ Hrow) as [CO CP].
    destruct (Forall2_nth _ _ _ _ _ CO HT) as (v & Hv & _). exists v.
    destruct (CP _ _ _ _ HC HT Hv) as [_ A]. split; [|apply A; intros c' _ X; apply NI; eapply nth_error_In; eauto].
    rewrite !get_at by auto.
    replace ((0 <=? c) && (0 <=? RowCount t + k))%Z with true by (symmetry; apply andb_true_iff; unfold RowCount; lia).
    unfold at_cell. cbn [with_rows rows]. rewrite nth_error_app2 by (unfold RowCount; lia).
    replace (Z.to_nat (RowCount t + k) - List.length (rows t)) with (Z.to_nat k) by (unfold RowCount; lia).
    now rewrite Hrow, Hv.
Qed.

Lemma cols_added_of F extra t t' : wf_table t -> wf_table t' -> cols_extended F extra t t' -> cols_added F extra t t'.
Proof.
  intros W W' [B CN CT CR]. constructor; auto.
  - intros c r Hc. rewrite !get_at by auto. destruct (Z.leb_spec 0 c); simpl; auto. destruct (Z.leb_spec 0 r); simpl; auto.
    unfold at_cell. destruct (nth_error (rows t) (Z.to_nat r)) as [row|] eqn:E.
    + destruct (Forall2_nth _ _ _ _ _ CR E) as (row' & E' & zs & -> & Z). rewrite E'.
      rewrite nth_error_app1; auto. rewrite (wf_row_len _ W _ _ E). unfold ColCount in Hc. lia.
    + replace (nth_error (rows t') (Z.to_nat r)) with (@None (list value)); auto. symmetry. apply nth_error_None.
      rewrite <- (Forall2_len _ _ _ CR). now apply nth_error_None.
  - intros c r ct Hc HT Hr. unfold RowCount, ColCount in *.
    destruct (nth_error_lt (rows t) (Z.to_nat r)) as [row E]; [lia|].
    destruct (Forall2_nth _ _ _ _ _ CR E) as (row' & E' & zs & -> & Z).
    rewrite CT, nth_error_app2 in HT by (rewrite (wf_types_len _ W); lia).
    destruct (Forall2_nth _ _ _ _ _ Z HT) as (v & V & ZV). exists v. split; auto.
    rewrite get_at by auto. destruct (Z.leb_spec 0 c); [|lia]. destruct (Z.leb_spec 0 r); [|lia]. cbn [andb].
    unfold at_cell. rewrite E'. rewrite nth_error_app2 by (rewrite (wf_row_len _ W _ _ E); lia).
    rewrite (wf_types_len _ W) in V. rewrite (wf_row_len _ W _ _ E), V. reflexivity.
Qed.

Lemma compat_has_cols t f : compat_cols t f (List.length (cnames f)) <-> has_cols_of t f.
Proof.
  split; intros H c cn ct; [intros H1 H2|intros H0 H1 H2]; eapply H; eauto. eapply nth_error_some_lt; eauto.
Qed.

Lemma agree_shared t f : agree_types t (cols_of f) <-> shared_cols_agree t f.
Proof.
  unfold agree_types, shared_cols_agree. split.
  - intros H i j cn ct ct' H1 H2 H3 H4. eapply H; eauto. eapply nth_error_In. unfold cols_of. rewrite nth_error_combine, H3, H4. reflexivity.
  - intros H cn ct i ct' I H1 H2. apply In_nth_error in I as [j I]. unfold cols_of in I. rewrite nth_error_combine in I.
    destruct (nth_error (cnames f) j) eqn:E1; [|discriminate]. destruct (nth_error (ctypes f) j) eqn:E2; [|discriminate].
    injection I as -> ->. eapply H; eauto.
Qed.
