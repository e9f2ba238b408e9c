(** Proofs_Keys.v -- closed forms of the sort-key methods, Sort, CompareRows, OrderColsBySortKeys. *)
From Coq Require Import ZArith NArith List String Ascii Bool SpecFloat Permutation Lia.
From Verif Require Import Base Model_Names Model_Table Model_Sort Model_Copy Spec Spec_Sort Spec_Copy.
From Verif Require Import Proofs_Lib Proofs_Table Proofs_Cells Proofs_Struct Proofs_Api Proofs_Api2 Proofs_Zero.
From Verif Require Import Proofs_Copy Proofs_Order Proofs_Sort Proofs_Search.
Import ListNotations.
Local Open Scope string_scope.
Local Open Scope list_scope.

(** ---------- setting keys ---------- *)

Definition key_for (t : table) (cn : string) : option skey :=
  match ColType t cn with
  | Ok ct => if str_in ct sortable_types then Some (mkKey cn ct false) else None
  | _ => None
  end.

Lemma key_for_ok t cn k : key_for t cn = Some k <->
  k_col k = cn /\ ColType t cn = Ok (k_type k) /\ In (k_type k) sortable_types /\ k_rev k = false.
Proof.
  unfold key_for. split.
  - destruct (ColType t cn) as [ct| |]; try discriminate. destruct (str_in ct sortable_types) eqn:S; try discriminate.
    intros H; injection H as <-. simpl. apply str_in_In in S. auto.
  - intros (<- & -> & S & R). apply str_in_In in S. rewrite S. destruct k; simpl in *. now subst.
Qed.

Lemma ColType_skeys ks t cn : ColType (with_skeys ks t) cn = ColType t cn.
Proof. reflexivity. Qed.
Lemma key_for_skeys ks t cn : key_for (with_skeys ks t) cn = key_for t cn.
Proof. reflexivity. Qed.

Lemma AppendSortKey_eq cn s : wf_table (s_tab s) ->
  AppendSortKey cn s = match key_for (s_tab s) cn with
                       | Some k => (on_tab (with_skeys (skeys (s_tab s) ++ [k])) s, Ok tt)
                       | None => (s, Err) end.
Proof.
  intros W. unfold AppendSortKey, key_for. mstep. pose proof (wf_ColType_no_panic _ W cn) as NP.
  destruct (ColType (s_tab s) cn) as [ct| |] eqn:CT; [|reflexivity|congruence].
  mstep. destruct (str_in ct sortable_types) eqn:S.
  - assert (NE : ct =? "" = false). { apply String.eqb_neq. intros ->. discriminate. }
    rewrite NE. cbn [negb]. reflexivity.
  - destruct (ct =? ""); reflexivity.
Qed.

(** The keys for the longest prefix of cns that is accepted, and whether that is all. *)
Fixpoint keys_for (t : table) (cns : list string) : list skey * bool :=
  match cns with
  | [] => ([], true)
  | cn :: r => match key_for t cn with
               | Some k => let '(ks, ok) := keys_for t r in (k :: ks, ok)
               | None => ([], false) end
  end.

Lemma keys_for_true t cns ks : keys_for t cns = (ks, true) <-> Forall2 (fun cn k => key_for t cn = Some k) cns ks.
Proof.
  revert ks. induction cns as [|cn r IH]; intros ks; simpl.
  - split; [intros H; injection H as <-; constructor|inversion 1; auto].
  - destruct (key_for t cn) as [k|] eqn:K.
    + destruct (keys_for t r) as [ks' ok]. split.
      * intros H. injection H as <- ->. constructor; auto. now apply IH.
      * inversion 1 as [|? k' ? ks'' H1 H2]; subst. apply IH in H2. congruence.
    + split; [discriminate|]. inversion 1; congruence.
Qed.
Lemma keys_for_false t cns : snd (keys_for t cns) = false <-> exists cn, In cn cns /\ key_for t cn = None.
Proof.
  induction cns as [|cn r IH]; simpl.
  - split; [discriminate|intros (? & [] & _)].
  - destruct (key_for t cn) as [k|] eqn:K.
    + destruct (keys_for t r) as [ks' ok]. simpl in *. rewrite IH. split.
      * intros (c & I & N). exists c. auto.
      * intros (c & [<-|I] & N); [congruence|eauto].
    + simpl. split; auto. intros _. exists cn. auto.
Qed.

Lemma mfor_AppendSortKey cns : forall s, wf_table (s_tab s) ->
  mfor cns AppendSortKey s = (on_tab (with_skeys (skeys (s_tab s) ++ fst (keys_for (s_tab s) cns))) s,
                              if snd (keys_for (s_tab s) cns) then Ok tt else Err).
Proof.
  induction cns as [|cn r IH]; intros s W.
  - simpl. rewrite app_nil_r. unfold on_tab, with_skeys. now rewrite table_eta, st_eta.
  - cbn [mfor]. simpl. destruct (key_for (s_tab s) cn) as [k|] eqn:K.
    + erewrite bind_eq_ok by (rewrite AppendSortKey_eq, K by auto; reflexivity).
      assert (W1 : wf_table (s_tab (on_tab (with_skeys (skeys (s_tab s) ++ [k])) s))) by (destruct W; constructor; auto).
      rewrite IH by auto.
      assert (KF : keys_for (s_tab (on_tab (with_skeys (skeys (s_tab s) ++ [k])) s)) r = keys_for (s_tab s) r).
      { clear. induction r as [|c r IHr]; auto. simpl in *. rewrite IHr. reflexivity. }
      rewrite KF. destruct (keys_for (s_tab s) r) as [ks' ok]. simpl. rewrite <- app_assoc. reflexivity.
    + erewrite bind_eq_err by (rewrite AppendSortKey_eq, K by auto; reflexivity). simpl. rewrite app_nil_r.
      unfold on_tab, with_skeys. now rewrite table_eta, st_eta.
Qed.

Lemma wf_with_skeys t ks : wf_table t -> wf_table (with_skeys ks t).
Proof. intros W. destruct W; constructor; auto. Qed.

Lemma SetSortKeys_eq cns s : wf_table (s_tab s) ->
  SetSortKeys cns s = (on_tab (with_skeys (fst (keys_for (s_tab s) cns))) s,
                       if snd (keys_for (s_tab s) cns) then Ok tt else Err).
Proof.
  intros W. unfold SetSortKeys. mstep. rewrite mfor_AppendSortKey by (now apply wf_with_skeys).
  assert (KF : keys_for (s_tab (on_tab (with_skeys []) s)) cns = keys_for (s_tab s) cns).
  { clear. induction cns as [|c r IHr]; auto. simpl in *. rewrite IHr. reflexivity. }
  rewrite KF. reflexivity.
Qed.

(** ---------- reversing ---------- *)

Definition rev_keys (cn : string) (ks : list skey) : list skey :=
  map (fun k => if k_col k =? cn then mkKey (k_col k) (k_type k) true else k) ks.

Lemma setSortKeyReverse_eq cn s :
  setSortKeyReverse cn s =
  if existsb (fun k => k_col k =? cn) (skeys (s_tab s)) then (on_tab (with_skeys (rev_keys cn (skeys (s_tab s)))) s, Ok tt)
  else (s, Err).
Proof.
  unfold setSortKeyReverse. mstep. destruct (skeys (s_tab s)) as [|k ks] eqn:SK; [reflexivity|].
  cbn [List.length Nat.eqb negb]. mstep. destruct (existsb _ (k :: ks)) eqn:EX; [unfold check; reflexivity|].
  assert (ID : map (fun k => if k_col k =? cn then mkKey (k_col k) (k_type k) true else k) (k :: ks) = k :: ks).
  { clear SK. revert EX. generalize (k :: ks). intros l. induction l as [|a l IH]; auto. simpl. destruct (k_col a =? cn); [discriminate|].
    simpl. intros H. f_equal. auto. }
  rewrite ID, <- SK. unfold on_tab, with_skeys. now rewrite table_eta, st_eta.
Qed.

Lemma SetSortKeysReverse_eq cns : forall s, Forall (fun cn => In cn (map k_col (skeys (s_tab s)))) cns ->
  SetSortKeysReverse cns s =
  (on_tab (with_skeys (map (fun k => if str_in (k_col k) cns then mkKey (k_col k) (k_type k) true else k) (skeys (s_tab s)))) s, Ok tt).
Proof.
  unfold SetSortKeysReverse. induction cns as [|cn r IH]; intros s F.
  - simpl. unfold ret. f_equal. rewrite <- (st_eta s) at 1. unfold on_tab. f_equal. rewrite <- (table_eta (s_tab s)) at 1.
    unfold with_skeys. f_equal. symmetry. apply map_id.
  - inversion F as [|? ? H F']; subst. cbn [mfor].
    erewrite bind_eq_ok.
    2:{ rewrite setSortKeyReverse_eq. replace (existsb _ _) with true; [reflexivity|]. symmetry. apply existsb_exists.
        apply in_map_iff in H as (k & <- & I). exists k. split; auto. apply String.eqb_refl. }
    rewrite IH.
    + simpl. f_equal. unfold on_tab, with_skeys. simpl. f_equal. f_equal. unfold rev_keys. rewrite map_map. apply map_ext.
      intros k. unfold str_in. simpl. destruct (String.eqb_spec (k_col k) cn) as [->|NE]; simpl.
      * destruct (existsb _ r); reflexivity.
      * destruct (existsb _ r); reflexivity.
    + simpl. eapply Forall_impl; [|exact F']. intros a. unfold rev_keys. rewrite map_map.
      erewrite map_ext; [intros I; exact I|]. intros k. simpl. destruct (k_col k =? cn); reflexivity.
Qed.

(** ---------- Sort ---------- *)

Lemma compare_val_some E ct v w : In ct sortable_types -> cell_ok ct v -> cell_ok ct w -> exists c, compare_val E ct v w = Some c.
Proof.
  intros S Hv Hw.
  types S; unfold compare_val; simpl;
    destruct v as [| | |[] ?| | |?|[?|]| |], Hv as [Hv _]; simpl in Hv; try discriminate; try contradiction; try (destruct Hv; discriminate);
    destruct w as [| | |[] ?| | |?|[?|]| |], Hw as [Hw _]; simpl in Hw; try discriminate; try contradiction; try (destruct Hw; discriminate);
    simpl; eauto.
Qed.

Lemma less_rows_total E t ks ri rj : wf_table t -> kgood t ks -> In ri (rows t) -> In rj (rows t) ->
  exists b, less_rows E (cmap t) ks ri rj = Some b.
Proof.
  intros W G Hi Hj. apply In_nth_error in Hi as [i Hi]. apply In_nth_error in Hj as [j Hj].
  induction G as [|k ks H G IH]; simpl; eauto.
  destruct (keys_cell t k (Z.of_nat i) ri W ltac:(now rewrite Nat2Z.id) ltac:(lia) H) as (c & v & M & V & _ & CV & S).
  destruct (keys_cell t k (Z.of_nat j) rj W ltac:(now rewrite Nat2Z.id) ltac:(lia) H) as (c' & v' & M' & V' & _ & CV' & _).
  assert (c' = c) by congruence. subst. rewrite M, V, V'.
  destruct (compare_val_some E _ _ _ S CV CV') as (x & ->). destruct (_ =? 0)%Z; eauto.
Qed.

Lemma perm_at {A} (l l' : list A) i x : Permutation l l' -> nth_error l i = Some x -> exists j, nth_error l' j = Some x.
Proof. intros P H. apply In_nth_error. eapply Permutation_in; eauto. eapply nth_error_In; eauto. Qed.

Lemma wf_perm t rs : wf_table t -> Permutation rs (rows t) -> wf_table (with_rows rs t).
Proof.
  intros W P. apply wf_with_rows; auto.
  - pose proof (wf_cells _ W) as F. rewrite Forall_forall in *. intros r I. apply F. eapply Permutation_in; eauto.
  - intros N. destruct (wf_name _ W) as [[? _]|(_ & _ & _ & R)]; [congruence|]. rewrite R in P. now apply Permutation_sym, Permutation_nil in P.
Qed.

Lemma sorted_rows E t rs : env_ok E -> wf_table t -> keys_ok t -> no_nan_keys t ->
  go_sort E (less_rows E (cmap t) (skeys t)) (rows t) = Some rs -> sorted_table E (with_rows rs t).
Proof.
  intros EO W K N H. pose proof (eo_perm E EO _ _ _ H) as P.
  pose proof (wf_perm t rs W P) as W'. set (t' := with_rows rs t) in *.
  assert (N' : no_nan_keys t').
  { intros k r v I G. pose proof K as KK. unfold keys_ok in KK. rewrite Forall_forall in KK. specialize (KK k I).
    destruct KK as (i & NM & CT & _).
    rewrite (GetVal_col_at t' (Z.of_nat i)) in G by (auto; now apply col_at_nat).
    rewrite get_at in G by auto. destruct (_ && _)%bool eqn:B; [|discriminate]. apply andb_true_iff in B as [_ B]. apply Z.leb_le in B.
    unfold at_cell in G. change (rows t') with rs in G. destruct (nth_error rs (Z.to_nat r)) as [row|] eqn:R; [|discriminate].
    destruct (perm_at _ _ _ _ P R) as (j & J). apply (N k (Z.of_nat j) v I).
    rewrite (GetVal_col_at t (Z.of_nat i)) by (auto; now apply col_at_nat).
    rewrite get_at_nat by auto. unfold at_cell. rewrite J. rewrite Nat2Z.id in G. exact G. }
  assert (LO : less_ok (less_rows E (cmap t) (skeys t)) (rows t)).
  { apply less_ok_rows. rewrite Forall_forall. intros row I. apply In_nth_error in I as [i Hi].
    assert (Hi' : nth_error (rows t) (Z.to_nat (Z.of_nat i)) = Some row) by now rewrite Nat2Z.id.
    destruct (kvt_kv t W (skeys t) (Z.of_nat i) row K Hi' ltac:(lia)) as (EQ & KI & _).
    split; auto. rewrite <- EQ. eapply kvt_tok; eauto. lia. }
  pose proof (eo_sorted E EO _ _ _ LO H) as S.
  intros i j IJ JN. unfold RowCount in JN. change (rows t') with rs in JN.
  destruct (nth_error_lt rs (Z.to_nat i)) as [ri Hi]; [lia|]. destruct (nth_error_lt rs (Z.to_nat j)) as [rj Hj]; [lia|].
  assert (SF : less_rows E (cmap t) (skeys t) rj ri = Some false) by (eapply (S (Z.to_nat i) (Z.to_nat j)); eauto; lia).
  assert (K' : kgood t' (skeys t')) by exact K.
  rewrite (keys_lt_tlt t' W' E (skeys t') j i rj ri K' Hj Hi) by lia.
  destruct (kvt_kv t' W' (skeys t') j rj K' Hj ltac:(lia)) as (EQj & KIj & _).
  destruct (kvt_kv t' W' (skeys t') i ri K' Hi ltac:(lia)) as (EQi & KIi & _).
  destruct (less_rows_spec E (cmap t') (skeys t') rj ri KIj KIi) as (b & B & HB).
  { rewrite <- EQj. eapply kvt_tok; eauto. lia. } { rewrite <- EQi. eapply kvt_tok; eauto. lia. }
  change (less_rows E (cmap t) (skeys t) rj ri = Some b) in B. rewrite EQi, EQj, <- HB. congruence.
Qed.

Lemma Sort_keys_eq E s : Sort E [] s =
  if Nat.eqb (List.length (skeys (s_tab s))) 0 then (s, Err)
  else match go_sort E (less_rows E (cmap (s_tab s)) (skeys (s_tab s))) (rows (s_tab s)) with
       | Some rs => (on_tab (with_rows rs) s, Ok tt) | None => (s, Panic) end.
Proof.
  unfold Sort. cbn [List.length Nat.ltb Nat.leb]. mstep. destruct (Nat.eqb _ 0); cbn [negb]; [reflexivity|].
  unfold sortByKeys. mstep. destruct (go_sort _ _ _); reflexivity.
Qed.

(** ---------- sort keys as a table ---------- *)

Definition keytab_hdr : table :=
  mkT "SortKeys" ["index"; "colName"; "colType"; "reverse"] ["int"; "string"; "string"; "bool"]
      [("reverse", 3); ("colType", 2); ("colName", 1); ("index", 0)] [] [] false false None.
Definition nokey := mkKey "" "" false.
Definition key_row (k : skey) (i : Z) : list value :=
  [VInt KInt i; VString (k_col k); VString (k_type k); VBool (k_rev k)].
Definition keytab (ks : list skey) : table :=
  with_rows (map (fun i => key_row (nth i ks nokey) (Z.of_nat i)) (seq 0 (List.length ks))) keytab_hdr.

Lemma combine_zseq {A} (l : list A) d : combine (zseq (List.length l)) l = map (fun z => (z, nth (Z.to_nat z) l d)) (zseq (List.length l)).
Proof.
  apply nth_error_ext. intros i. rewrite nth_error_combine, nth_error_map, nth_error_zseq.
  destruct (Nat.ltb_spec i (List.length l)) as [H|H]; [|reflexivity].
  destruct (nth_error_lt l i H) as [x Hx]. rewrite Hx. simpl. rewrite Nat2Z.id. now rewrite (nth_error_nth _ _ d Hx).
Qed.
Lemma mfor_map {A B} (f : A -> B) l body s : mfor (map f l) body s = mfor l (fun x => body (f x)) s.
Proof. revert s. induction l as [|x l IH]; intros s; simpl; auto. unfold bind. destruct (body (f x) s) as [s1 [?| |]]; auto. Qed.

Lemma GetSortKeysAsTable_eq t : GetSortKeysAsTable t = Ok (keytab (skeys t)).
Proof.
  unfold GetSortKeysAsTable. set (ks := skeys t).
  change (NewTable "SortKeys") with (Ok (mkT "SortKeys" [] [] [] [] [] false false None)). cbn [rbind].
  unfold run. match goal with |- context [mfor ?l ?bd] => set (L := mfor l bd) end.
  assert (H : (AppendCol "index" "int" ;;; AppendCol "colName" "string" ;;; AppendCol "colType" "string" ;;; AppendCol "reverse" "bool" ;;; L)
     (mkS (mkT "SortKeys" [] [] [] [] [] false false None) 0 []) = L (mkS keytab_hdr 0 [])).
  { erewrite bind_eq_ok by (vm_compute; reflexivity). erewrite bind_eq_ok by (vm_compute; reflexivity).
    erewrite bind_eq_ok by (vm_compute; reflexivity). erewrite bind_eq_ok by (vm_compute; reflexivity). reflexivity. }
  rewrite H. clear H. subst L. rewrite (combine_zseq ks nokey), mfor_map.
  rewrite (mfor_snoc _ _ (fun i => key_row (nth i ks nokey) (Z.of_nat i))); [reflexivity|].
  intros k rs Hk HL. simpl in HL. rewrite Nat.add_0_r in HL. rewrite Nat2Z.id.
  assert (TY : Forall (fun ct => In ct all_types) (ctypes keytab_hdr)) by (repeat (apply Forall_cons; [now apply str_in_In|]); apply Forall_nil).
  erewrite bind_eq_ok by (apply AppendRow_direct; [reflexivity|reflexivity|exact TY]).
  unfold row_added. simpl.
  erewrite bind_eq_ok.
  2:{ eapply SetT_direct with (i := 0) (ct := "int"); try reflexivity; simpl.
      - rewrite nth_error_app2, <- HL, Nat.sub_diag by lia. reflexivity.
      - simpl; lia. }
  erewrite bind_eq_ok.
  2:{ eapply SetT_direct with (i := 1) (ct := "string"); try reflexivity; simpl.
      - rewrite <- HL, upd_app_mid, nth_error_app2, Nat.sub_diag by lia. reflexivity.
      - simpl; lia. }
  erewrite bind_eq_ok.
  2:{ eapply SetT_direct with (i := 2) (ct := "string"); try reflexivity; simpl.
      - rewrite <- HL, !upd_app_mid, nth_error_app2, Nat.sub_diag by lia. reflexivity.
      - simpl; lia. }
  erewrite SetT_direct with (i := 3) (ct := "bool"); try reflexivity; simpl.
  2:{ rewrite <- HL, !upd_app_mid, nth_error_app2, Nat.sub_diag by lia. reflexivity. }
  2:{ simpl; lia. }
  rewrite <- HL, !upd_app_mid. reflexivity.
Qed.

Lemma keytab_rows ks k : nth_error (rows (keytab ks)) k = option_map (fun x => key_row x (Z.of_nat k)) (nth_error ks k).
Proof.
  simpl. rewrite nth_error_map. destruct (Nat.lt_ge_cases k (List.length ks)) as [H|H].
  - rewrite nth_error_nth' with (d := 0) by (rewrite seq_length; auto). rewrite seq_nth by auto.
    destruct (nth_error_lt ks k H) as [x Hx]. rewrite Hx. simpl. now rewrite (nth_error_nth _ _ nokey Hx).
  - rewrite (proj2 (nth_error_None ks k)) by auto.
    rewrite (proj2 (nth_error_None (seq 0 (List.length ks)) k)) by (now rewrite seq_length). reflexivity.
Qed.
Lemma keytab_length ks : List.length (rows (keytab ks)) = List.length ks.
Proof. simpl. now rewrite map_length, seq_length. Qed.

Lemma mapM_nth {A B} (f : A -> res B) l l' : List.length l = List.length l' ->
  (forall i a b, nth_error l i = Some a -> nth_error l' i = Some b -> f a = Ok b) -> mapM f l = Ok l'.
Proof.
  revert l'. induction l as [|a l IH]; intros [|b l'] L H; try discriminate; [reflexivity|].
  simpl. rewrite (H 0 a b eq_refl eq_refl). cbn [rbind]. rewrite (IH l'); [reflexivity|now injection L|].
  intros i x y X Y. apply (H (S i)); auto.
Qed.

Lemma read_keys_keytab ks : read_keys (keytab ks) =
  Ok (map k_col ks, map k_col (filter k_rev ks)).
Proof.
  unfold read_keys. rewrite keytab_length.
  erewrite (mapM_nth _ _ (map (fun k => (k_col k, k_rev k)) ks)).
  - cbn [rbind]. f_equal. f_equal; [now rewrite map_map|].
    induction ks as [|k ks IH]; auto. simpl. destruct (k_rev k); simpl; congruence.
  - now rewrite zseq_length, map_length.
  - intros i z p Hz Hp. rewrite nth_error_zseq in Hz. destruct (Nat.ltb_spec i (List.length ks)) as [H|H]; [|discriminate].
    injection Hz as <-. rewrite nth_error_map in Hp. destruct (nth_error ks i) as [k|] eqn:K; [|discriminate]. injection Hp as <-.
    erewrite GetT_direct with (i := 1) (ct := "string"); try reflexivity.
    2:{ rewrite keytab_rows, K. reflexivity. } 2:{ reflexivity. }
    cbn [rbind type_assert]. 
    erewrite GetT_direct with (i := 3) (ct := "bool"); try reflexivity.
    2:{ rewrite keytab_rows, K. reflexivity. } 2:{ reflexivity. }
    reflexivity.
Qed.

Lemma NoDup_app2 {A} (a b : list A) : NoDup a -> NoDup b -> (forall x, In x a -> ~ In x b) -> NoDup (a ++ b).
Proof.
  intros NA NB D. induction NA as [|x a X NA IH]; simpl; auto. constructor.
  - rewrite in_app_iff. intros [I|I]; auto. apply (D x); auto. now left.
  - apply IH. intros y Y. apply D. now right.
Qed.
