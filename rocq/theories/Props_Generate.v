(** Props_Generate.v -- the Go code generated from a table (C59). *)
From Coq Require Import ZArith NArith List String Ascii Bool SpecFloat Lia.
From Verif Require Import Base Model_Names Model_Table Model_Heap Model_TableSet Spec_Text Model_Lex Model_Parser Model_Print Model_Copy Model_Generate Spec Proofs_Lib Proofs_Table Samples Proofs_Pres.
From Verif Require Import Proofs_Lex Proofs_Copy Proofs_Cells Proofs_Api Props_Struct Props_Cells Props_Parser Props_Text Spec_Generate Proofs_Generate Proofs_GenRun.
Import ListNotations.
Local Open Scope string_scope.
Local Open Scope list_scope.

Lemma names_idents l : Forall go_name l -> Forall (fun cn => identifier cn = true) l.
Proof. intros F. eapply Forall_impl; [|exact F]. now intros a [H _]. Qed.

(** C59: GenerateTypeStruct writes a struct type with the name of the table and one field for
    each column, in order, with the column's name and type. *)
Theorem C59_type_struct : forall now t, has "/" now = false -> wf_table t -> go_name (tname t) -> Forall go_name (cnames t) ->
  exists s, GenerateTypeStruct now t = Ok s /\ read_decl s = Some (type_of t).
Proof. intros now t N W [I _] F. apply type_struct; auto. now apply names_idents. Qed.

(** The accessors named in the generated functions are those of the column types. *)
Theorem C59_accessors : forall ct, In ct all_types -> go_column ct ->
  method "Get" (getterName ct) = Some ct /\ method "Set" (setterName ct) = Some ct.
Proof. intros ct I G. now destruct (accessor_ok ct I G) as (_ & _ & A & B). Qed.

(** The function that GenerateTypeStructSliceFromTable writes, called with a table that has the
    columns, returns one struct for each row, in order, and each field holds the cell of its
    column.  Called with nil, or with a table with rows that lacks a column, it returns an error. *)
Theorem C59_slice_from_table : forall ip now src, has "/" now = false -> readable_table src ->
  exists s f, GenerateTypeStructSliceFromTable ip now src = Ok s /\ read_from s = Some f /\
    ff_name f = ("TypeStructSliceFromTable_" ++ tname src)%string /\ ff_elem f = tname src /\
    call_from (type_of src) f None = Some Err /\
    forall t, wf_table t ->
      (has_columns_of src t -> exists sl, call_from (type_of src) f (Some t) = Some (Ok sl) /\ List.length sl = List.length (rows t) /\
         forall i r, nth_error sl i = Some r -> List.length r = List.length (cnames src) /\
           forall k cn, nth_error (cnames src) k = Some cn -> exists v, nth_error r k = Some v /\ GetVal t cn (Z.of_nat i) = Ok v) /\
      (~ has_columns_of src t -> rows t <> [] -> call_from (type_of src) f (Some t) = Some Err).
Proof.
  intros ip now src N R. pose proof (rt_table _ R) as G. pose proof (gt_wf _ G) as W. destruct (gt_name _ G) as [NI NB].
  destruct (from_text ip now src N W NI (names_idents _ (gt_names _ G)) (gt_types _ G)) as (s & E & RD).
  exists s, (from_of src). split; [exact E|]. split; [exact RD|]. split; [reflexivity|]. split; [reflexivity|]. split; [now rewrite call_from_eq|].
  intros t WT. rewrite call_from_eq by exact R.
  assert (FE : forall i p, i < List.length (rows t) -> In p (cols src) ->
    (exists c ct', col_at t c (fst p) /\ nth_error (ctypes t) (Z.to_nat c) = Some ct' /\ same_go_type (snd p) ct') /\ (exists v, fetch t i p = Ok v /\ GetVal t (fst p) (Z.of_nat i) = Ok v)
    \/ ~ (exists c ct', col_at t c (fst p) /\ nth_error (ctypes t) (Z.to_nat c) = Some ct' /\ same_go_type (snd p) ct') /\ fetch t i p = Err).
  { intros i p L P. destruct (cols_in src p W P) as (_ & _ & TA). destruct (GetT_eq (snd p) t (fst p) (Z.of_nat i) WT TA) as [(c & ct & C & T1 & SG & Hr & EG & v & V & HT)|[NO EG]].
    - left. split; [exists c, ct; auto|]. exists v. unfold fetch. rewrite EG. split; [exact V|]. now rewrite (GetVal_col_at t c) by auto.
    - right. split; [|exact EG]. intros (c & ct & A & B & D). apply NO. exists c, ct. split; [exact A|]. split; [exact B|]. split; [exact D|]. unfold RowCount. lia. }
  split.
  - intros HC.
    assert (HR : forall i, i < List.length (rows t) -> exists r, rmap (fetch t i) (cols src) = Ok r /\ List.length r = List.length (cnames src) /\
      forall k cn, nth_error (cnames src) k = Some cn -> exists v, nth_error r k = Some v /\ GetVal t cn (Z.of_nat i) = Ok v).
    { intros i L. exists (map (fun p => match fetch t i p with Ok v => v | _ => VNil end) (cols src)).
      assert (OKS : forall k p, nth_error (cols src) k = Some p -> exists v, fetch t i p = Ok v /\ GetVal t (fst p) (Z.of_nat i) = Ok v).
      { intros k [cn ct] K. destruct (FE i (cn, ct) L (nth_error_In _ _ K)) as [[_ H]|[NO _]]; [exact H|]. exfalso. apply NO. apply (cols_nth _ _ _ _ W) in K as [K1 K2]. cbn [fst snd]. eapply HC; eauto. }
      split; [|split].
      - apply rmap_of_nth; [now rewrite map_length|]. intros k p K. destruct (OKS k p K) as (v & V & _). exists v. split; [|exact V]. rewrite nth_error_map, K. cbn. now rewrite V.
      - rewrite map_length. now apply cols_length.
      - intros k cn K. assert (L2 : k < List.length (ctypes src)) by (rewrite (wf_types_len _ W); now apply nth_error_some_lt in K). destruct (nth_error_lt _ _ L2) as [ct CT].
        assert (CK : nth_error (cols src) k = Some (cn, ct)) by (now apply cols_nth). destruct (OKS k _ CK) as (v & V & GV). exists v. split; [|exact GV]. rewrite nth_error_map, CK. cbn [option_map]. now rewrite V. }
    set (g := fun i => rmap (fetch t i) (cols src)).
    set (sl := map (fun i => match g i with Ok r => r | _ => [] end) (seq 0 (List.length (rows t)))).
    assert (RS : rmap g (seq 0 (List.length (rows t))) = Ok sl).
    { apply rmap_of_nth; [unfold sl; now rewrite map_length|]. intros k i K. assert (I : In i (seq 0 (List.length (rows t)))) by (eapply nth_error_In; exact K). apply in_seq in I.
      destruct (HR i ltac:(lia)) as (r & RR & _). exists r. unfold sl. rewrite nth_error_map, K. cbn [option_map]. unfold g. now rewrite RR. }
    exists sl. unfold g in RS. split; [exact (f_equal (of_res (fun rs => rs)) RS)|]. split; [unfold sl; now rewrite map_length, seq_length|].
    intros i r RI. assert (L : i < List.length (rows t)). { apply nth_error_some_lt in RI. unfold sl in RI. now rewrite map_length, seq_length in RI. }
    destruct (HR i L) as (r' & RR & LR & CR).
    assert (r = r'). { unfold sl in RI. rewrite nth_error_map in RI. rewrite (nth_error_nth' _ 0) in RI by (now rewrite seq_length). rewrite seq_nth in RI by exact L. cbn [option_map plus] in RI. unfold g in RI. rewrite RR in RI. congruence. }
    subst r'. split; [exact LR|exact CR].
  - intros NH NR. destruct (rows t) as [|r0 rs] eqn:RT; [contradiction|]. cbn [List.length seq rmap].
    assert (L0 : 0 < List.length (r0 :: rs)) by (cbn; lia).
    assert (HF : forall ps, incl ps (cols src) -> (exists p, In p ps /\ fetch t 0 p = Err) -> rmap (fetch t 0) ps = Err).
    { induction ps as [|p ps IH]; intros IC (q & Q & QE); [contradiction|]. cbn [rmap]. destruct (FE 0 p L0 (IC p (or_introl eq_refl))) as [(_ & v & V & _)|[_ V]]; rewrite V; cbn [rbind]; [|reflexivity].
      destruct Q as [->|Q]; [congruence|]. rewrite IH; [reflexivity|intros x X; apply IC; now right|eauto]. }
    rewrite HF; [reflexivity|intros x X; exact X|].
    assert (D : (exists p, In p (cols src) /\ fetch t 0 p = Err) \/ (forall p, In p (cols src) -> exists v, fetch t 0 p = Ok v)).
    { assert (IC : incl (cols src) (cols src)) by (intros x X; exact X). revert IC. generalize (cols src) at 1 3 4 as ps. induction ps as [|p ps IH]; intros IC; [right; intros ? []|].
      destruct (FE 0 p L0 (IC p (or_introl eq_refl))) as [(_ & v & V & _)|[_ V]]; [|left; exists p; split; [now left|exact V]].
      destruct IH as [(q & Q & QE)|A]; [intros x X; apply IC; now right|left; exists q; split; [now right|exact QE]|]. right. intros q [<-|Q]; eauto. }
    destruct D as [D|A]; [exact D|]. exfalso. apply NH. intros i cn ct H1 H2.
    assert (P : In (cn, ct) (cols src)) by (eapply nth_error_In; apply (cols_nth _ i _ _ W); split; eassumption).
    destruct (FE 0 (cn, ct) L0 P) as [[H _]|[_ V]]; [exact H|]. destruct (A _ P) as [v V']. congruence.
Qed.

(** In particular, a table with the columns of the one the code was generated from gives its rows. *)
Theorem C59_rows_of_table : forall ip now src s f t, has "/" now = false -> readable_table src ->
  GenerateTypeStructSliceFromTable ip now src = Ok s -> read_from s = Some f ->
  wf_table t -> is_nil t = false -> cnames t = cnames src -> ctypes t = ctypes src -> call_from (type_of src) f (Some t) = Some (Ok (rows t)).
Proof.
  intros ip now src s f t N R E F WT NT CN CT. pose proof (gt_wf _ (rt_table _ R)) as W.
  destruct (C59_slice_from_table ip now src N R) as (s' & f' & E' & F' & _ & _ & _ & H). rewrite E in E'. injection E' as <-. rewrite F in F'. injection F' as <-.
  destruct (H t WT) as [A _]. destruct A as (sl & CS & LS & CELLS).
  { intros i cn ct H1 H2. exists (Z.of_nat i), ct. unfold col_at. rewrite Nat2Z.id, CN, CT. split; [split; [lia|exact H1]|]. split; [exact H2|now left]. }
  rewrite CS. f_equal. f_equal. unfold go_struct in *. apply nth_error_ext. intros i. destruct (nth_error sl i) as [r|] eqn:SI.
  - assert (L : i < List.length (rows t)) by (rewrite <- LS; now apply nth_error_some_lt in SI). destruct (nth_error_lt _ _ L) as [row RI]. rewrite RI. f_equal.
    destruct (CELLS i r SI) as [LR CR]. pose proof (wf_cells _ WT) as WC. pose proof (Forall_nth_error _ _ _ _ WC RI) as F2. apply Forall2_len in F2. rewrite CT, (wf_types_len _ W) in F2.
    apply nth_error_ext. intros k. destruct (nth_error (cnames src) k) as [cn|] eqn:K.
    + destruct (CR k cn K) as (v & V & GV). rewrite V.
      assert (CA : col_at t (Z.of_nat k) cn) by (unfold col_at; rewrite Nat2Z.id, CN; split; [lia|exact K]). rewrite (GetVal_col_at t (Z.of_nat k) cn _ WT CA) in GV.
      unfold GetValByColIndex in GV. rewrite NT in GV. destruct (negb (HasRow t (Z.of_nat i))); [discriminate|]. destruct (negb (HasColByColIndex t (Z.of_nat k))); [discriminate|].
      unfold cell in GV. rewrite !znth_of_nat, RI in GV. rewrite znth_of_nat in GV. destruct (nth_error row k); congruence.
    + apply nth_error_None in K. rewrite (proj2 (nth_error_None r k)) by lia. symmetry. apply nth_error_None. lia.
  - symmetry. apply nth_error_None. rewrite <- LS. now apply nth_error_None.
Qed.

(** The function that GenerateTypeStructSliceToTable writes, called with a slice of struct values,
    returns a table with the name, columns and types of the one it was generated from, whose
    rows are the structs in order.  Called with a nil slice, or with a struct that has a nil
    []byte, it returns an error. *)
Theorem C59_table_from_slice : forall ip now src, has "/" now = false -> go_table src ->
  exists s f, GenerateTypeStructSliceToTable ip now src = Ok s /\ read_to s = Some f /\
    tf_name f = ("TypeStructSliceToTable_" ++ tname src)%string /\ tf_elem f = tname src /\
    call_to (type_of src) f None = Some Err /\
    forall sl, Forall (struct_value src) sl ->
      (Forall no_nil_slice sl -> exists t, call_to (type_of src) f (Some sl) = Some (Ok t) /\ wf_table t /\ is_nil t = false /\ tname t = tname src /\
         cnames t = cnames src /\ ctypes t = ctypes src /\ rows t = sl /\ skeys t = [] /\ struct_shape t = false) /\
      (~ Forall no_nil_slice sl -> call_to (type_of src) f (Some sl) = Some Err).
Proof.
  intros ip now src N G. destruct (gt_name _ G) as [NI NB].
  destruct (to_text ip now src N (gt_wf _ G) (gt_nil _ G) NI (names_idents _ (gt_names _ G)) (gt_types _ G)) as (s & E & RD).
  destruct (call_to_eq src G) as [CN CS].
  exists s, (to_of src). split; [exact E|]. split; [exact RD|]. split; [reflexivity|]. split; [reflexivity|]. split; [exact CN|].
  intros sl F. specialize (CS sl F). 
  assert (NSL : Forall no_nil_slice sl <-> existsb (existsb nil_slice) sl = false).
  { rewrite <- not_true_iff_false. rewrite existsb_exists. rewrite Forall_forall. unfold no_nil_slice. split.
    - intros A (r & I & B). apply nil_slice_in in B. exact (A r I B).
    - intros A r I B. apply A. exists r. split; [exact I|]. now apply nil_slice_in. }
  destruct (existsb (existsb nil_slice) sl); split; intros H; auto; [apply NSL in H; discriminate|]. exfalso. apply H. now apply NSL.
Qed.

(** Both ways: a table becomes a slice and is made again with the same columns and rows, and a
    slice becomes a table and is read back. *)
Theorem C59_roundtrip : forall ip now src, has "/" now = false -> readable_table src ->
  exists s1 s2 f g, GenerateTypeStructSliceFromTable ip now src = Ok s1 /\ read_from s1 = Some f /\
    GenerateTypeStructSliceToTable ip now src = Ok s2 /\ read_to s2 = Some g /\
    (forall t, wf_table t -> is_nil t = false -> cnames t = cnames src -> ctypes t = ctypes src -> Forall no_nil_slice (rows t) ->
       exists sl t', call_from (type_of src) f (Some t) = Some (Ok sl) /\ call_to (type_of src) g (Some sl) = Some (Ok t') /\
         tname t' = tname src /\ cnames t' = cnames t /\ ctypes t' = ctypes t /\ rows t' = rows t) /\
    (forall sl, Forall (struct_value src) sl -> Forall no_nil_slice sl ->
       exists t, call_to (type_of src) g (Some sl) = Some (Ok t) /\ call_from (type_of src) f (Some t) = Some (Ok sl)).
Proof.
  intros ip now src N R. pose proof (rt_table _ R) as G.
  destruct (C59_slice_from_table ip now src N R) as (s1 & f & E1 & F1 & _).
  destruct (C59_table_from_slice ip now src N G) as (s2 & g & E2 & F2 & _ & _ & _ & H).
  exists s1, s2, f, g. split; [exact E1|]. split; [exact F1|]. split; [exact E2|]. split; [exact F2|]. split.
  - intros t WT NT CN CT NS. exists (rows t).
    pose proof (C59_rows_of_table ip now src s1 f t N R E1 F1 WT NT CN CT) as CF.
    destruct (H (rows t)) as [A _]. { pose proof (wf_cells _ WT) as Q. now rewrite CT in Q. }
    destruct (A NS) as (t' & C & _ & _ & TN & CN' & CT' & RT & _). exists t'. split; [exact CF|]. split; [exact C|]. split; [exact TN|]. split; [congruence|]. split; [congruence|exact RT].
  - intros sl SV NS. destruct (H sl SV) as [A _]. destruct (A NS) as (t & C & WT & NT & TN & CN & CT & RT & _). exists t. split; [exact C|].
    rewrite <- RT. exact (C59_rows_of_table ip now src s1 f t N R E1 F1 WT NT CN CT).
Qed.

(** ---------- a concrete case ---------- *)

Definition at_time : string := "1:09 PM Friday 29 Sep 2017".
Definition stock_doc : string := text2 "[Stock]~id item price code data ok~int string float64 byte []byte bool~1 |pen| 2.5 7 [1 2] true~2 |ink| 0.1 8 [] false~".
Definition stock : table := Eval vm_compute in tab (fst (NewTableFromString stock_doc [])) 0.
Ltac none_of := cbn; intuition discriminate.
Lemma stock_wf : wf_table stock.
Proof. apply (wf_read stock_doc). vm_compute. reflexivity. Qed.
Example C59_nonvacuous : has "/" at_time = false /\ readable_table stock /\ Forall (struct_value stock) (rows stock) /\ Forall no_nil_slice (rows stock) /\
  List.length (rows stock) = 2 /\ List.length (ctypes stock) = 6.
Proof.
  split; [vm_compute; reflexivity|]. split; [|split; [exact (wf_cells _ stock_wf)|split; [repeat (apply Forall_cons || apply Forall_nil); unfold no_nil_slice; none_of|split; reflexivity]]].
  split; [|split; none_of|repeat (apply Forall_cons || apply Forall_nil); none_of].
  split; [exact stock_wf|reflexivity|split; [vm_compute; reflexivity|discriminate]| | |none_of].
  - repeat (apply Forall_cons || apply Forall_nil); (split; [vm_compute; reflexivity|discriminate]).
  - repeat (apply Forall_cons || apply Forall_nil); (split; discriminate).
Qed.

(** ---------- what the generated code gets wrong ---------- *)

(** The accessors of a *Table or time.Time column are named Get*Table and GetTime.Time: the
    generated functions do not compile. *)
Theorem C59_table_column_refuted : exists t s1 s2, wf_table t /\ tname t = "T" /\ cnames t = ["c"] /\ ctypes t = ["*Table"] /\
  GenerateTypeStructSliceFromTable yes at_time t = Ok s1 /\ read_from s1 = None /\ GenerateTypeStructSliceToTable yes at_time t = Ok s2 /\ read_to s2 = None.
Proof.
  let m := constr:(SetName "T" ;;; AppendCol "c" "*Table") in let t := eval vm_compute in (fst (run m 0 NewNilTable)) in
  let s1 := eval vm_compute in (GenerateTypeStructSliceFromTable yes at_time t) in let s2 := eval vm_compute in (GenerateTypeStructSliceToTable yes at_time t) in
  match s1 with Ok ?x => match s2 with Ok ?y => exists t, x, y end end; split; [change t with (fst (run m 0 NewNilTable)); apply wf_run; pr|].
  repeat split; vm_compute; reflexivity.
Qed.
Theorem C59_time_column_refuted : exists t s1 s2, wf_table t /\ tname t = "T" /\ cnames t = ["c"] /\ ctypes t = ["time.Time"] /\
  GenerateTypeStructSliceFromTable yes at_time t = Ok s1 /\ read_from s1 = None /\ GenerateTypeStructSliceToTable yes at_time t = Ok s2 /\ read_to s2 = None.
Proof.
  let m := constr:(SetName "T" ;;; AppendCol "c" "time.Time") in let t := eval vm_compute in (fst (run m 0 NewNilTable)) in
  let s1 := eval vm_compute in (GenerateTypeStructSliceFromTable yes at_time t) in let s2 := eval vm_compute in (GenerateTypeStructSliceToTable yes at_time t) in
  match s1 with Ok ?x => match s2 with Ok ?y => exists t, x, y end end; split; [change t with (fst (run m 0 NewNilTable)); apply wf_run; pr|].
  repeat split; vm_compute; reflexivity.
Qed.

Ltac from_witness doc := let w := constr:(text2 doc) in let t := eval vm_compute in (tab (fst (NewTableFromString w [])) 0) in
  let s := eval vm_compute in (GenerateTypeStructSliceFromTable yes at_time t) in
  match s with Ok ?x => let f := eval vm_compute in (read_from x) in match f with Some ?g => exists t, x, g end end;
  split; [apply (wf_read w); vm_compute; reflexivity|]; repeat split; vm_compute; reflexivity.
(** An int column called rowIndex takes the place of the loop's counter: the code compiles, and
    stores the rows in the wrong places... *)
Theorem C59_rowIndex_column_refuted : exists t s f, wf_table t /\ cnames t = ["rowIndex"; "a"] /\ rows t = [[VInt KInt 1; VInt KInt 10]; [VInt KInt 0; VInt KInt 20]] /\
  GenerateTypeStructSliceFromTable yes at_time t = Ok s /\ read_from s = Some f /\
  call_from (type_of t) f (Some t) = Some (Ok [[VInt KInt 0; VInt KInt 10]; [VInt KInt 1; VInt KInt 20]]).
Proof. from_witness "[T]~rowIndex a~int int~1 10~0 20~". Qed.
(** ...or beyond the end of the slice. *)
Theorem C59_rowIndex_panic_refuted : exists t s f, wf_table t /\ cnames t = ["rowIndex"] /\ rows t = [[VInt KInt 7]] /\
  GenerateTypeStructSliceFromTable yes at_time t = Ok s /\ read_from s = Some f /\ call_from (type_of t) f (Some t) = Some Panic.
Proof. from_witness "[T]~rowIndex~int~7~". Qed.
(** Columns called err, table or nil, a column called like the table, the column _ and a table
    called table: the function that is generated does not compile. *)
Theorem C59_err_column_refuted : exists t s f, wf_table t /\ cnames t = ["err"; "a"] /\
  GenerateTypeStructSliceFromTable yes at_time t = Ok s /\ read_from s = Some f /\ call_from (type_of t) f (Some t) = None.
Proof. from_witness "[T]~err a~int int~1 10~". Qed.
Theorem C59_table_named_column_refuted : exists t s f, wf_table t /\ cnames t = ["table"; "a"] /\
  GenerateTypeStructSliceFromTable yes at_time t = Ok s /\ read_from s = Some f /\ call_from (type_of t) f (Some t) = None.
Proof. from_witness "[T]~table a~int int~1 10~". Qed.
Theorem C59_nil_column_refuted : exists t s f, wf_table t /\ cnames t = ["nil"; "a"] /\
  GenerateTypeStructSliceFromTable yes at_time t = Ok s /\ read_from s = Some f /\ call_from (type_of t) f (Some t) = None.
Proof. from_witness "[T]~nil a~int int~1 10~". Qed.
Theorem C59_same_name_refuted : exists t s f, wf_table t /\ tname t = "T" /\ cnames t = ["T"; "a"] /\
  GenerateTypeStructSliceFromTable yes at_time t = Ok s /\ read_from s = Some f /\ call_from (type_of t) f (Some t) = None.
Proof. from_witness "[T]~T a~int int~1 10~". Qed.
Theorem C59_blank_column_refuted : exists t s f, wf_table t /\ cnames t = ["_"; "a"] /\
  GenerateTypeStructSliceFromTable yes at_time t = Ok s /\ read_from s = Some f /\ call_from (type_of t) f (Some t) = None.
Proof. from_witness "[T]~_ a~int int~1 10~". Qed.
Theorem C59_table_name_refuted : exists t s f, wf_table t /\ tname t = "table" /\
  GenerateTypeStructSliceFromTable yes at_time t = Ok s /\ read_from s = Some f /\ call_from (type_of t) f (Some t) = None.
Proof. from_witness "[table]~b a~int int~1 10~". Qed.
(** A name that is a word of the Go language makes all three texts unreadable. *)
Theorem C59_keyword_refuted : exists t s1 s2 s3, wf_table t /\ cnames t = ["type"] /\ GenerateTypeStruct at_time t = Ok s1 /\ read_decl s1 = None /\
  GenerateTypeStructSliceFromTable yes at_time t = Ok s2 /\ read_from s2 = None /\ GenerateTypeStructSliceToTable yes at_time t = Ok s3 /\ read_to s3 = None.
Proof.
  set (w := text2 "[T]~type~int~1~"). let t := eval vm_compute in (tab (fst (NewTableFromString w [])) 0) in
  let s1 := eval vm_compute in (GenerateTypeStruct at_time t) in let s2 := eval vm_compute in (GenerateTypeStructSliceFromTable yes at_time t) in let s3 := eval vm_compute in (GenerateTypeStructSliceToTable yes at_time t) in
  match s1 with Ok ?x => match s2 with Ok ?y => match s3 with Ok ?z => exists t, x, y, z end end end.
  split; [apply (wf_read w); vm_compute; reflexivity|]. repeat split; vm_compute; reflexivity.
Qed.
(** A NilTable has no name: its struct type is no Go text. *)
Theorem C59_NilTable_refuted : exists s, GenerateTypeStruct at_time NewNilTable = Ok s /\ read_decl s = None.
Proof. let s := eval vm_compute in (GenerateTypeStruct at_time NewNilTable) in match s with Ok ?x => exists x end. split; vm_compute; reflexivity. Qed.
(** A table with a nil []byte becomes a slice of structs from which no table can be made. *)
Theorem C59_nil_slice_refuted : exists ip now src t f g s1 s2 sl, readable_table src /\ wf_table t /\ cnames t = cnames src /\ ctypes t = ctypes src /\
  GenerateTypeStructSliceFromTable ip now src = Ok s1 /\ read_from s1 = Some f /\ GenerateTypeStructSliceToTable ip now src = Ok s2 /\ read_to s2 = Some g /\
  call_from (type_of src) f (Some t) = Some (Ok sl) /\ call_to (type_of src) g (Some sl) = Some Err.
Proof.
  set (m := SetName "T" ;;; AppendCol "b" "[]byte" ;;; AppendRow ;;; SetVal "b" 0 (VBytes None)).
  set (t := fst (run m 0 NewNilTable)).
  assert (W : wf_table t) by (apply wf_run; unfold m; pr; apply pres_SetVal; try reflexivity; exact I).
  assert (R : readable_table t).
  { split; [|split; intros Z; vm_compute in Z; intuition discriminate|vm_compute; repeat (apply Forall_cons || apply Forall_nil); intuition discriminate].
    split; [exact W|vm_compute; reflexivity|split; [vm_compute; reflexivity|vm_compute; discriminate]| | |intros Z; vm_compute in Z; intuition discriminate].
    - vm_compute; repeat (apply Forall_cons || apply Forall_nil); (split; [vm_compute; reflexivity|discriminate]).
    - vm_compute; repeat (apply Forall_cons || apply Forall_nil); (split; discriminate). }
  destruct (C59_slice_from_table yes at_time t eq_refl R) as (s1 & f & E1 & F1 & _).
  destruct (C59_table_from_slice yes at_time t eq_refl (rt_table _ R)) as (s2 & g & E2 & F2 & _ & _ & _ & H).
  exists yes, at_time, t, t, f, g, s1, s2, (rows t). split; [exact R|]. split; [exact W|]. split; [reflexivity|]. split; [reflexivity|]. split; [exact E1|]. split; [exact F1|]. split; [exact E2|]. split; [exact F2|].
  split; [apply (C59_rows_of_table yes at_time t s1 f t eq_refl R E1 F1 W); reflexivity|].
  destruct (H (rows t) (wf_cells _ W)) as [_ X]. apply X. intros Q. vm_compute in Q. apply Forall_inv in Q. apply Q. now left.
Qed.

(** Axioms used by any theorem of this file. *)
Definition all_Props_Generate :=
  (@C59_type_struct,
   @C59_accessors,
   @C59_slice_from_table,
   @C59_rows_of_table,
   @C59_table_from_slice,
   @C59_roundtrip,
   @C59_table_column_refuted,
   @C59_time_column_refuted,
   @C59_rowIndex_column_refuted,
   @C59_rowIndex_panic_refuted,
   @C59_err_column_refuted,
   @C59_table_named_column_refuted,
   @C59_nil_column_refuted,
   @C59_same_name_refuted,
   @C59_blank_column_refuted,
   @C59_table_name_refuted,
   @C59_keyword_refuted,
   @C59_NilTable_refuted,
   @C59_nil_slice_refuted).
Print Assumptions all_Props_Generate.
