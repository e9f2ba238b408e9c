(** Proofs_GenRun.v -- what the generated programs do. *)
From Coq Require Import ZArith NArith List String Ascii Bool SpecFloat Lia.
From Verif Require Import Base Model_Names Model_Table Model_Lex Model_Print Model_Copy Model_Generate Spec Proofs_Lib Proofs_Table.
From Verif Require Import Proofs_Lex Proofs_Copy Proofs_Cells Props_Struct Spec_Generate Proofs_Generate.
Import ListNotations.
Local Open Scope string_scope.
Local Open Scope list_scope.

(** ---------- names ---------- *)

Lemma lookup_blank e : lookup "_" e = None. Proof. destruct e; reflexivity. Qed.
Lemma lookup_in n s e b : n <> "_" -> in_scope n s = Some b -> lookup n (s :: e) = Some b.
Proof. intros N H. cbn [lookup]. apply String.eqb_neq in N. now rewrite N, H. Qed.
Lemma lookup_out n s e : in_scope n s = None -> lookup n (s :: e) = lookup n e.
Proof. intros H. cbn [lookup]. destruct (n =? "_") eqn:B; [|now rewrite H]. apply String.eqb_eq in B. subst. symmetry. apply lookup_blank. Qed.
Lemma in_scope_skip n m b s : n <> m -> in_scope n ((m, b) :: s) = in_scope n s.
Proof. intros H. cbn [in_scope]. apply String.eqb_neq in H. now rewrite H. Qed.
Lemma in_scope_here n b s : in_scope n ((n, b) :: s) = Some b.
Proof. cbn [in_scope]. now rewrite String.eqb_refl. Qed.
Lemma package_builtin d n : n <> d_name d -> builtin (package d) n = builtin [universe] n.
Proof. intros H. unfold builtin, package. rewrite lookup_out; [reflexivity|]. rewrite in_scope_skip by exact H. reflexivity. Qed.
Lemma package_type d : d_name d <> "_" -> lookup (d_name d) (package d) = Some TypeName.
Proof. intros H. unfold package. apply lookup_in; [exact H|]. apply in_scope_here. Qed.
Lemma builtin_out n s e : in_scope n s = None -> builtin (s :: e) n = builtin e n.
Proof. intros H. unfold builtin. now rewrite lookup_out. Qed.
Lemma field_at done cn ct ps : ~ In cn (map fst done) -> field (done ++ (cn, ct) :: ps) cn = Some (List.length done, ct).
Proof.
  induction done as [|[g u] done IH]; intros N; cbn [List.app field]; [now rewrite String.eqb_refl|]. cbn [map fst] in N.
  destruct (String.eqb_spec cn g) as [E|NE]; [exfalso; apply N; now left|]. rewrite IH; [reflexivity|]. intros I. apply N. now right.
Qed.
Lemma same_type_refl a : same_type a a = true. Proof. apply String.eqb_refl. Qed.

(** ---------- reading a table ---------- *)

Definition fetch (t : table) (i : nat) (p : string * string) : res value := GetT (snd p) t (fst p) (Z.of_nat i).
Definition of_res {A B} (f : A -> B) (r : res A) : option (res B) :=
  match r with Ok a => Some (Ok (f a)) | Err => Some Err | Panic => Some Panic end.
Definition from_env (d : decl) : list scope := [(d_name d, TheSlice); ("table", TheTable)] :: package d.

Lemma turn_from_eq src t i : readable_table src -> let n := tname src in
  forall ps done sc (sl : list go_struct) (vs zs : go_struct), cols src = done ++ ps -> (forall x, in_scope x sc <> None -> x = "err" \/ In x (map fst done)) ->
  nth_error sl i = Some (vs ++ zs) -> List.length vs = List.length done -> List.length zs = List.length ps ->
  turn_from (type_of src) t ([("rowIndex", Var "int" (VInt KInt (Z.of_nat i)))] :: from_env (type_of src)) sc (flat_map (from_stmts n) ps) sl
  = of_res (fun ws => upd sl i (vs ++ ws)) (rmap (fetch t i) ps).
Proof.
  intros R n. pose proof (rt_table _ R) as GT. pose proof (gt_wf _ GT) as W. pose proof (gt_name _ GT) as [NI NB].
  destruct (rt_free _ R) as [FR NC]. pose proof (rt_cols _ R) as RC. set (d := type_of src). set (E := from_env d).
  set (e := [("rowIndex", Var "int" (VInt KInt (Z.of_nat i)))] :: E).
  assert (Nerr : n <> "err") by (intros Q; apply FR; unfold n in Q; rewrite Q; cbn; tauto).
  assert (Nri : n <> "rowIndex") by (intros Q; apply FR; unfold n in Q; rewrite Q; cbn; tauto).
  assert (Ntab : n <> "table") by (intros Q; apply FR; unfold n in Q; rewrite Q; cbn; tauto).
  assert (Nnil : n <> "nil") by (intros Q; apply (gt_free _ GT); unfold n in Q; rewrite Q; cbn; tauto).
  (* names that are neither err nor a column mean what they mean around the loop *)
  assert (OUT : forall done ps sc x, cols src = done ++ ps -> (forall y, in_scope y sc <> None -> y = "err" \/ In y (map fst done)) -> x <> "err" -> ~ In x (cnames src) -> in_scope x sc = None).
  { intros done ps sc x C S0 X1 X2. destruct (in_scope x sc) eqn:Q; [|reflexivity]. exfalso. destruct (S0 x) as [->|J]; [congruence|now apply X1|].
    apply X2. rewrite <- (cols_names _ W), C, map_app. apply in_or_app. now left. }
  assert (FREE : ~ In "table" (cnames src) /\ ~ In "rowIndex" (cnames src) /\ ~ In "nil" (cnames src) /\ ~ In "err" (cnames src)).
  { rewrite Forall_forall in RC. repeat split; intros Q; apply (RC _ Q); cbn; tauto. }
  destruct FREE as (F1 & F2 & F3 & F4).
  assert (LT : lookup "table" e = Some TheTable).
  { unfold e. rewrite lookup_out by reflexivity. unfold E, from_env. apply lookup_in; [discriminate|]. rewrite in_scope_skip by (exact (not_eq_sym Ntab)). reflexivity. }
  assert (LR : lookup "rowIndex" e = Some (Var "int" (VInt KInt (Z.of_nat i)))) by reflexivity.
  assert (LN : lookup n e = Some TheSlice).
  { unfold e. rewrite lookup_out by (apply in_scope_skip; exact Nri). unfold E, from_env. apply lookup_in; [exact NB|]. apply in_scope_here. }
  assert (LB : builtin e "nil" = true).
  { unfold e. rewrite builtin_out by reflexivity. unfold E, from_env. rewrite builtin_out; [rewrite package_builtin by (exact (not_eq_sym Nnil)); reflexivity|]. rewrite in_scope_skip by (exact (not_eq_sym Nnil)). reflexivity. }
  induction ps as [|[cn ct] ps IH]; intros done sc sl vs zs C S0 NT LV LZ.
  - cbn [flat_map rmap of_res turn_from]. destruct zs; [|discriminate]. rewrite app_nil_r in *. now rewrite upd_same.
  - assert (P : In (cn, ct) (cols src)) by (rewrite C; apply in_or_app; right; now left).
    destruct (cols_in src _ W P) as (CI & TI & TA). cbn [fst snd] in *.
    assert (GO : go_column ct) by (pose proof (gt_types _ GT) as Q; rewrite Forall_forall in Q; auto).
    assert (GN : go_name cn) by (pose proof (gt_names _ GT) as Q; rewrite Forall_forall in Q; auto). destruct GN as [_ CB].
    assert (C1 : cn <> "err") by congruence. assert (C2 : cn <> "rowIndex") by congruence. assert (C3 : cn <> "table") by congruence. assert (C4 : cn <> "nil") by congruence.
    assert (C5 : cn <> n) by (intros ->; contradiction).
    assert (ND : ~ In cn (map fst done)).
    { pose proof (wf_nodup _ W) as Q. rewrite <- (cols_names _ W), C, map_app in Q. cbn [map fst] in Q. apply NoDup_remove_2 in Q. intros J. apply Q, in_or_app. now left. }
    assert (SN : in_scope cn sc = None).
    { destruct (in_scope cn sc) eqn:Q; [|reflexivity]. exfalso. destruct (S0 cn) as [J|J]; [congruence|contradiction..]. }
    destruct (accessor_ok _ TA GO) as (_ & _ & MG & _).
    cbn [flat_map from_stmts List.app fst snd]. cbn [turn_from].
    replace (cn =? "err") with false by (symmetry; now apply String.eqb_neq). replace (cn =? "_") with false by (symmetry; now apply String.eqb_neq). cbn [orb].
    rewrite SN, MG. rewrite (lookup_out "table" sc) by (apply (OUT done ((cn, ct) :: ps)); auto; discriminate). rewrite LT.
    unfold index at 1. rewrite (lookup_out "rowIndex" sc) by (apply (OUT done ((cn, ct) :: ps)); auto; discriminate). rewrite LR.
    cbn [rmap]. unfold fetch at 1. cbn [fst snd].
    assert (SC : forall b x, let sc' : scope := ("err", AnError b) :: (cn, Var ct x) :: sc in
       lookup "err" (sc' :: e) = Some (AnError b) /\ builtin (sc' :: e) "nil" = true /\ lookup n (sc' :: e) = Some TheSlice /\
       index (sc' :: e) = Some (Z.of_nat i) /\ lookup cn (sc' :: e) = Some (Var ct x)).
    { intros b x sc'. split; [reflexivity|]. split; [|split; [|split]].
      - unfold builtin. rewrite lookup_out; [exact LB|]. unfold sc'. rewrite in_scope_skip by discriminate. rewrite in_scope_skip by congruence. apply (OUT done ((cn, ct) :: ps)); auto; discriminate.
      - rewrite lookup_out; [exact LN|]. unfold sc'. rewrite in_scope_skip by exact Nerr. rewrite in_scope_skip by congruence. apply (OUT done ((cn, ct) :: ps)); auto.
      - unfold index. rewrite lookup_out; [now rewrite LR|]. unfold sc'. rewrite in_scope_skip by discriminate. rewrite in_scope_skip by congruence. apply (OUT done ((cn, ct) :: ps)); auto; discriminate.
      - apply lookup_in; [exact CB|]. unfold sc'. rewrite in_scope_skip by exact C1. apply in_scope_here. }
    destruct (GetT ct t cn (Z.of_nat i)) as [x| |] eqn:G; cbn [rbind of_res].
    + destruct (SC false x) as (S1 & S2 & S3 & S4 & S5). cbn [turn_from]. rewrite S1, S2. cbv iota. rewrite S3, S4, S5.
      unfold d at 1. cbn [type_of d_fields]. fold (cols src). rewrite C, (field_at _ _ _ _ ND).
      replace (cn =? "_") with false by (symmetry; now apply String.eqb_neq). rewrite same_type_refl. cbn [orb negb].
      rewrite zidx_of_nat by (now apply nth_error_some_lt in NT). rewrite NT.
      destruct zs as [|z zs]; [discriminate|].
      rewrite (IH (done ++ [(cn, ct)]) _ _ (vs ++ [x]) zs).
      * destruct (rmap (fetch t i) ps) as [ws| |]; cbn [rbind of_res]; [|reflexivity..]. rewrite upd_upd, <- app_assoc. reflexivity.
      * rewrite C, <- app_assoc. reflexivity.
      * intros y Y. rewrite map_app. cbn [map fst]. destruct (string_dec y "err") as [->|Y1]; [now left|]. rewrite in_scope_skip in Y by exact Y1.
        destruct (string_dec y cn) as [->|Y2]; [right; apply in_or_app; right; now left|]. rewrite in_scope_skip in Y by exact Y2.
        destruct (S0 y Y) as [->|J]; [now left|right; apply in_or_app; now left].
      * rewrite nth_error_upd_eq by (now apply nth_error_some_lt in NT). rewrite <- LV, upd_app_mid, <- app_assoc. reflexivity.
      * rewrite !app_length, LV. reflexivity.
      * now injection LZ.
    + destruct (SC true (go_zero ct)) as (S1 & S2 & _). cbn [turn_from]. rewrite S1, S2. reflexivity.
    + reflexivity.
Qed.

Lemma loop_from_eq src t k : readable_table src -> forall (done : list go_struct) (zero : go_struct), List.length zero = List.length (cols src) ->
  loop_from (type_of src) t (from_env (type_of src)) (flat_map (from_stmts (tname src)) (cols src)) (seq (List.length done) k) (done ++ repeat zero k)
  = of_res (fun rs => done ++ rs) (rmap (fun i => rmap (fetch t i) (cols src)) (seq (List.length done) k)).
Proof.
  intros R. induction k as [|k IH]; intros done zero L; [reflexivity|]. cbn [seq repeat loop_from].
  rewrite (turn_from_eq src t (List.length done) R (cols src) [] [] _ [] zero); [|reflexivity|intros x X; now contradiction X| |reflexivity|exact L].
  2:{ rewrite nth_error_app2 by lia. rewrite Nat.sub_diag. reflexivity. }
  cbn [rmap]. destruct (rmap (fetch t (List.length done)) (cols src)) as [ws| |]; cbn [of_res rbind]; [|reflexivity..].
  cbn [List.app]. rewrite upd_app_mid.
  replace (S (List.length done)) with (List.length (done ++ [ws])) by (rewrite app_length; cbn; lia). pose proof (IH (done ++ [ws]) zero L) as H. rewrite <- app_assoc in H. etransitivity; [exact H|].
  destruct (rmap _ _); cbn [of_res rbind]; [rewrite <- app_assoc; reflexivity|reflexivity..].
Qed.

Lemma decl_ok_of src : go_table src -> decl_ok (type_of src) = true.
Proof.
  intros G. unfold decl_ok. apply forallb_forall. intros p P. destruct (cols_in src p (gt_wf _ G) P) as (_ & B & C). pose proof (gt_types _ G) as F. rewrite Forall_forall in F.
  destruct (F _ B) as [N _]. unfold field_type. apply str_in_In in C. rewrite C. apply String.eqb_neq in N. now rewrite N.
Qed.

Theorem call_from_eq src arg : readable_table src ->
  call_from (type_of src) (from_of src) arg =
  match arg with
  | None => Some Err
  | Some t => of_res (fun rs => rs) (rmap (fun i => rmap (fetch t i) (cols src)) (seq 0 (List.length (rows t))))
  end.
Proof.
  intros R. pose proof (rt_table _ R) as G. destruct (rt_free _ R) as [FR NC]. pose proof (gt_free _ G) as FB. destruct (gt_name _ G) as [NI NB].
  unfold call_from. cbn [from_of ff_var ff_elem ff_type ff_make ff_ret ff_body]. fold (from_env (type_of src)).
  change (tname src) with (d_name (type_of src)) in *. set (d := type_of src) in *.
  assert (Q : forall x, In x ["nil"; "error"; "string"; "len"; "fmt"; "gotables"; "make"; "table"; "rowIndex"; "err"] -> x <> d_name d).
  { intros x I ->. cbn in I. cbn in FB, FR. tauto. }
  assert (DO : decl_ok d = true) by exact (decl_ok_of _ G). rewrite DO. rewrite !package_builtin by (apply Q; cbn; tauto).
  unfold is_type at 1. rewrite package_type by exact NB.
  assert (L1 : lookup (d_name d) ([("table", TheTable)] :: package d) = Some TypeName).
  { rewrite lookup_out by (apply in_scope_skip; apply not_eq_sym, Q; cbn; tauto). now apply package_type. }
  unfold is_type. rewrite !L1. rewrite !(builtin_out _ [("table", TheTable)]) by reflexivity. rewrite !package_builtin by (apply Q; cbn; tauto).
  replace (str_in (d_name d) ["table"; "_"]) with false.
  2:{ symmetry. unfold str_in. cbn [existsb]. rewrite !orb_false_r. apply orb_false_iff. split; apply String.eqb_neq; [apply not_eq_sym, Q; cbn; tauto|exact NB]. }
  change ([(d_name d, TheSlice); ("table", TheTable)] :: package d) with (from_env d).
  assert (L0 : builtin (from_env d) "nil" = true).
  { unfold from_env. rewrite builtin_out by (rewrite in_scope_skip by (apply Q; cbn; tauto); reflexivity). rewrite package_builtin by (apply Q; cbn; tauto). reflexivity. }
  rewrite L0.
  change (true && builtin [universe] "gotables" && builtin [universe] "error" && true && builtin [universe] "nil" && builtin [universe] "fmt" && builtin [universe] "make" && true && true && negb false && true) with true.
  cbv iota.
  assert (L2 : lookup (d_name d) (from_env d) = Some TheSlice) by (unfold from_env; apply lookup_in; [exact NB|apply in_scope_here]).
  assert (L3 : lookup "table" ([("rowIndex", Var "int" (VInt KInt 0))] :: from_env d) = Some TheTable).
  { rewrite lookup_out by reflexivity. unfold from_env. apply lookup_in; [discriminate|]. rewrite in_scope_skip by (apply Q; cbn; tauto). reflexivity. }
  rewrite L2, L3. destruct arg as [t|]; [|reflexivity].
  pose proof (loop_from_eq src t (List.length (rows t)) R [] (map (fun p => go_zero (snd p)) (d_fields d))) as H. cbn [List.length List.app] in H. apply H.
  now rewrite map_length.
Qed.

(** ---------- making a table ---------- *)

Lemma wf_add_row t rs r : wf_table t -> is_nil t = false -> Forall (Forall2 cell_ok (ctypes t)) rs -> Forall2 cell_ok (ctypes t) r -> wf_table (with_rows (rs ++ [r]) t).
Proof.
  intros W N F R. destruct W as [A B C D E G H]. constructor; cbn; auto.
  - destruct A as [A|(A & _)]; [now left|congruence].
  - apply Forall_app. split; [exact F|]. constructor; [exact R|constructor].
Qed.
Definition nil_slice (v : value) : bool := match v with VBytes None => true | _ => false end.
Lemma nil_slice_in s : existsb nil_slice s = true <-> In (VBytes None) s.
Proof. rewrite existsb_exists. split; [intros (v & I & H); destruct v as [| | | | | |[|]| | |]; try discriminate; exact I|intros I; exists (VBytes None); auto]. Qed.

Lemma turn_sets src s i : go_table src -> Forall2 cell_ok (ctypes src) s ->
  forall ps done T R vs ss zs, cols src = done ++ ps -> wf_table T -> is_nil T = false -> cnames T = cnames src -> ctypes T = ctypes src ->
  Forall (Forall2 cell_ok (ctypes src)) R -> List.length R = i ->
  s = vs ++ ss -> List.length vs = List.length done -> Forall2 cell_ok (ctypes src) (vs ++ zs) -> List.length zs = List.length ps ->
  turn_to (type_of src) s (Z.of_nat i) (flat_map to_stmts ps) (with_rows (R ++ [vs ++ zs]) T) false
  = if existsb nil_slice ss then Some Err else Some (Ok (with_rows (R ++ [s]) T)).
Proof.
  intros G SV. pose proof (gt_wf _ G) as W. induction ps as [|[cn ct] ps IH]; intros done T R vs ss zs C WT NT CN CT FR LR SE LV FZ LZ.
  - destruct zs; [|discriminate]. rewrite app_nil_r in *. cbn [flat_map turn_to].
    assert (ss = []). { apply Forall2_len in SV, FZ. rewrite SE, app_length in SV. rewrite SV in FZ. destruct ss; [reflexivity|cbn in FZ; lia]. }
    subst ss. rewrite app_nil_r in SE. subst vs. reflexivity.
  - assert (P : In (cn, ct) (cols src)) by (rewrite C; apply in_or_app; right; now left).
    destruct (cols_in src _ W P) as (CI & TI & TA). cbn [fst snd] in *.
    assert (GO : go_column ct) by (pose proof (gt_types _ G) as Q; rewrite Forall_forall in Q; auto).
    assert (GN : go_name cn) by (pose proof (gt_names _ G) as Q; rewrite Forall_forall in Q; auto). destruct GN as [_ CB].
    assert (ND : ~ In cn (map fst done)).
    { pose proof (wf_nodup _ W) as Q. rewrite <- (cols_names _ W), C, map_app in Q. cbn [map fst] in Q. apply NoDup_remove_2 in Q. intros J. apply Q, in_or_app. now left. }
    assert (AT : nth_error (cols src) (List.length done) = Some (cn, ct)) by (rewrite C, nth_error_app2, Nat.sub_diag by lia; reflexivity).
    apply (cols_nth _ _ _ _ W) in AT as [ATN ATT].
    destruct (accessor_ok _ TA GO) as (_ & _ & _ & MS).
    destruct zs as [|z zs]; [discriminate|]. 
    assert (SS : exists x ss', ss = x :: ss').
    { apply Forall2_len in SV, FZ. rewrite SE, app_length in SV. rewrite SV, app_length in FZ. destruct ss as [|x ss']; [cbn in FZ; lia|eauto]. }
    destruct SS as (x & ss' & ->).
    assert (SX : nth_error s (List.length done) = Some x) by (rewrite SE, <- LV, nth_error_app2, Nat.sub_diag by lia; reflexivity).
    destruct (Forall2_nth _ _ _ _ _ SV ATT) as (x' & X' & [XT XG]). rewrite SX in X'. injection X' as <-.
    assert (XA : arg_of_type ct x = true).
    { clear -XT TA. unfold arg_of_type. types TA; destruct x as [| | |k z| | |[b|]|[p|]| |]; try (destruct k); cbn in XT; try contradiction; try discriminate; try (destruct XT; discriminate); reflexivity. }
    cbn [flat_map to_stmts List.app fst snd turn_to]. rewrite MS. cbn [type_of d_fields]. fold (cols src). rewrite C, (field_at _ _ _ _ ND).
    replace (cn =? "_") with false by (symmetry; now apply String.eqb_neq). rewrite same_type_refl. cbn [orb negb]. rewrite SX.
    set (tk := with_rows (R ++ [vs ++ z :: zs]) T).
    assert (WK : wf_table tk) by (apply wf_add_row; auto; rewrite CT; assumption).
    assert (RK : RowCount tk = Z.of_nat (S i)) by (unfold RowCount, tk; cbn; rewrite app_length; cbn; f_equal; lia).
    unfold step, run.
    destruct (SetT_eq ct cn (Z.of_nat i) x (mkS tk 0 []) WK TA XA) as [(j & ct' & NN & _ & J1 & J2 & _ & ->)|[NO ->]].
    + cbn [s_tab] in *. change (cnames tk) with (cnames T) in J1. rewrite CN in J1. assert (j = List.length done) by (eapply NoDup_nth; [exact (wf_nodup _ W)|exact J1|exact ATN]). subst j.
      assert (NS : nil_slice x = false) by (destruct x as [| | | | | |[|]| | |]; try reflexivity; discriminate).
      cbn [existsb]. rewrite NS, orb_false_l.
      assert (TE : s_tab (Proofs_Cells.written (List.length done) (Z.to_nat (Z.of_nat i)) x (mkS tk 0 [])) = with_rows (R ++ [(vs ++ [x]) ++ zs]) T).
      { unfold Proofs_Cells.written, on_tab. cbn [s_tab]. unfold tk, with_rows. cbn [rows]. f_equal. unfold put. rewrite Nat2Z.id, <- LR, nth_error_app2, Nat.sub_diag by lia.
        cbn [nth_error]. rewrite upd_app_mid. f_equal. f_equal. rewrite <- LV, upd_app_mid, <- app_assoc. reflexivity. }
      rewrite TE. cbn [turn_to]. rewrite (IH (done ++ [(cn, ct)]) T R (vs ++ [x]) ss' zs); auto.
      * rewrite C, <- app_assoc. reflexivity.
      * rewrite SE, <- app_assoc. reflexivity.
      * rewrite !app_length, LV. reflexivity.
      * rewrite <- app_assoc. cbn [List.app]. rewrite <- (upd_app_mid vs zs z x). rewrite LV. eapply Forall2_upd; [exact FZ|exact ATT|split; assumption].
    + cbn [s_tab turn_to]. assert (NS : nil_slice x = true).
      { destruct (nil_slice x) eqn:NS; [reflexivity|]. exfalso. apply NO. exists (List.length done), ct. cbn [s_tab]. split; [destruct x as [| | | | | |[|]|[|]| |]; try reflexivity; try discriminate; contradiction XT|].
        split; [rewrite RK; lia|]. split; [change (cnames tk) with (cnames T); now rewrite CN|]. split; [change (ctypes tk) with (ctypes T); now rewrite CT|exact XT]. }
      cbn [existsb]. rewrite NS. reflexivity.
Qed.

Lemma with_rows_twice a b t : with_rows a (with_rows b t) = with_rows a t. Proof. reflexivity. Qed.
Lemma turn_to_eq src s T : go_table src -> Forall2 cell_ok (ctypes src) s -> wf_table T -> is_nil T = false -> cnames T = cnames src -> ctypes T = ctypes src ->
  turn_to (type_of src) s (Z.of_nat (List.length (rows T))) ([SAppend; SCheck] ++ flat_map to_stmts (cols src)) T false
  = if existsb nil_slice s then Some Err else Some (Ok (with_rows (rows T ++ [s]) T)).
Proof.
  intros G SV WT NT CN CT. pose proof (gt_wf _ G) as W. cbn [List.app turn_to]. unfold step, run. rewrite AppendRow_eq by exact WT. cbn [s_tab]. rewrite NT. cbn [turn_to].
  pose proof (row_added_wf (mkS T 0 []) WT NT) as WR.
  assert (ZR : Forall2 cell_ok (ctypes src) (zeros (next (mkS T 0 [])) (ctypes T))).
  { pose proof (wf_cells _ WR) as F. unfold row_added in F. cbn [s_tab with_rows rows ctypes] in F. apply Forall_app in F as [_ F]. inversion F; subst. now rewrite <- CT. }
  unfold row_added. cbn [s_tab].
  set (zs := zeros (next (mkS T 0 [])) (ctypes T)) in *. change (rows T ++ [zs]) with (rows T ++ [[] ++ zs]).
  apply (turn_sets src s (List.length (rows T)) G SV (cols src) [] T (rows T) [] s zs); auto.
  - pose proof (wf_cells _ WT) as F. now rewrite CT in F.
  - apply Forall2_len in ZR. rewrite <- ZR, (wf_types_len _ W). symmetry. now apply cols_length.
Qed.

Lemma loop_to_eq src : go_table src -> forall sl T, Forall (Forall2 cell_ok (ctypes src)) sl -> wf_table T -> is_nil T = false -> cnames T = cnames src -> ctypes T = ctypes src ->
  loop_to (type_of src) ([SAppend; SCheck] ++ flat_map to_stmts (cols src)) (List.length (rows T)) sl T
  = if existsb (existsb nil_slice) sl then Some Err else Some (Ok (with_rows (rows T ++ sl) T)).
Proof.
  intros G. induction sl as [|s sl IH]; intros T F WT NT CN CT.
  - cbn [loop_to existsb]. rewrite app_nil_r. destruct T; reflexivity.
  - inversion F; subst. cbn [loop_to existsb]. rewrite turn_to_eq by assumption. destruct (existsb nil_slice s) eqn:NS; [reflexivity|]. cbn [orb].
    replace (S (List.length (rows T))) with (List.length (rows (with_rows (rows T ++ [s]) T))) by (cbn; rewrite app_length; cbn; lia).
    rewrite IH; auto.
    + cbn [rows with_rows]. rewrite <- app_assoc. reflexivity.
    + apply wf_add_row; auto; rewrite ?CT; auto. pose proof (wf_cells _ WT) as Q. now rewrite CT in Q.
Qed.

Theorem call_to_eq src : go_table src -> call_to (type_of src) (to_of src) None = Some Err /\
  forall sl, Forall (Forall2 cell_ok (ctypes src)) sl ->
  if existsb (existsb nil_slice) sl then call_to (type_of src) (to_of src) (Some sl) = Some Err
  else exists t, call_to (type_of src) (to_of src) (Some sl) = Some (Ok t) /\ wf_table t /\ is_nil t = false /\ tname t = tname src /\
       cnames t = cnames src /\ ctypes t = ctypes src /\ rows t = sl /\ skeys t = [] /\ struct_shape t = false.
Proof.
  intros G. pose proof (gt_wf _ G) as W. pose proof (gt_free _ G) as FB. destruct (gt_name _ G) as [NI NB].
  assert (H : forall arg, call_to (type_of src) (to_of src) arg = match arg with
    | None => Some Err
    | Some sl => match NewTableFromMetadata (tname src) (cnames src) (ctypes src) with
                 | Ok t => loop_to (type_of src) ([SAppend; SCheck] ++ flat_map to_stmts (cols src)) 0 sl t | Err => Some Err | Panic => Some Panic end
    end).
  { intros arg. unfold call_to. cbn [to_of tf_elem tf_table tf_cols tf_types tf_body]. change (tname src) with (d_name (type_of src)) in *. set (d := type_of src) in *.
    assert (Q : forall x, In x ["nil"; "error"; "string"; "len"; "fmt"; "gotables"] -> x <> d_name d) by (intros x I ->; contradiction).
    assert (DO : decl_ok d = true) by exact (decl_ok_of _ G). rewrite DO. cbn [forallb]. rewrite !package_builtin by (apply Q; cbn; tauto).
    unfold is_type. rewrite package_type by exact NB.
    change (true && (builtin [universe] "gotables" && (builtin [universe] "error" && (builtin [universe] "nil" && (builtin [universe] "fmt" && (builtin [universe] "string" && (builtin [universe] "len" && true)))))) && true) with true.
    reflexivity. }
  split; [now rewrite H|]. intros sl F. rewrite !H.
  assert (VN : valid_name (tname src)) by (destruct (wf_name _ W) as [[_ V]|(V & _)]; [exact V|rewrite (gt_nil _ G) in V; discriminate]).
  destruct (proj1 (C07_NewTableFromMetadata (tname src) (cnames src) (ctypes src))) as (t & -> & WT & TN & NT & CN & CT & RT & KT & ST & _).
  { unfold metadata_ok. split; [exact VN|]. split; [symmetry; exact (wf_types_len _ W)|]. split; [exact (wf_colnames _ W)|]. split; [exact (wf_nodup _ W)|exact (wf_types _ W)]. }
  pose proof (loop_to_eq src G sl t F WT NT CN CT) as L. rewrite RT in L. cbn [List.length List.app] in L.
  change (loop_to (type_of src) ([SAppend; SCheck] ++ flat_map to_stmts (cols src)) 0 sl t) with (loop_to (type_of src) (SAppend :: SCheck :: flat_map to_stmts (cols src)) 0 sl t).
  rewrite L. destruct (existsb (existsb nil_slice) sl) eqn:NS; [reflexivity|]. eexists. split; [reflexivity|].
  split; [|cbn; auto 10]. destruct WT as [A B C D E G' H']. constructor; cbn; auto; [destruct A as [A|(A & _)]; [now left|congruence]|]. now rewrite CT.
Qed.
