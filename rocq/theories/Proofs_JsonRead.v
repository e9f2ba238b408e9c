(** Proofs_JsonRead.v -- the table that newTableFromJSON builds from the JSON value of a table. *)
From Coq Require Import ZArith NArith List String Ascii Bool SpecFloat Lia Relations.
From Verif Require Import Base Model_Names Model_Table Model_Sort Model_Heap Model_TableSet Model_Lex Model_Float Model_Time
  Model_Parser Model_Print Model_Json Spec Spec_Heap Spec_Walk Spec_Text Spec_Json Proofs_Lib Proofs_Table Proofs_Cells Proofs_Struct Proofs_Api
  Proofs_Pres Proofs_Api2 Proofs_Copy Proofs_Heap Proofs_Walk Proofs_Lex Proofs_Num Proofs_Float Proofs_FloatText Proofs_TimeText Proofs_JsonWrite Proofs_JsonValue.
Import ListNotations.
Local Open Scope string_scope.
Local Open Scope list_scope.

(** ---------- heaps ---------- *)

Lemma tab_old h l a : a < List.length h -> tab (h ++ l) a = tab h a.
Proof. intros L. unfold tab. now apply app_nth1. Qed.
Lemma tab_upd_same h p t : p < List.length h -> tab (upd h p t) p = t.
Proof. intros L. unfold tab. erewrite nth_error_nth; [reflexivity|now apply nth_error_upd_eq]. Qed.
Lemma tab_upd_other h p a t : a <> p -> tab (upd h p t) a = tab h a.
Proof.
  intros N. unfold tab. destruct (nth_error h a) as [x|] eqn:E.
  - rewrite (nth_error_nth _ _ _ E). erewrite nth_error_nth; [reflexivity|]. rewrite nth_error_upd_ne by congruence. exact E.
  - apply nth_error_None in E. rewrite !nth_overflow; auto. now rewrite upd_length.
Qed.

(** The same table but for its parent *)
Definition same_data (t t' : table) : Prop :=
  tname t' = tname t /\ cnames t' = cnames t /\ ctypes t' = ctypes t /\ rows t' = rows t /\ struct_shape t' = struct_shape t
  /\ skeys t' = skeys t /\ is_nil t' = is_nil t.
Lemma same_data_refl t : same_data t t. Proof. repeat split. Qed.
Definition agree (lo : nat) (h1 h2 : heap) : Prop :=
  List.length h1 <= List.length h2 /\ forall a, lo <= a < List.length h1 -> same_data (tab h1 a) (tab h2 a).
Lemma agree_refl lo h : agree lo h h.
Proof. split; auto. intros. apply same_data_refl. Qed.
Lemma agree_trans lo h1 h2 h3 : agree lo h1 h2 -> agree lo h2 h3 -> agree lo h1 h3.
Proof.
  intros [L1 A1] [L2 A2]. split; [lia|]. intros a Ha. destruct (A1 a Ha) as (E1 & E2 & E3 & E4 & E5 & E6 & E7).
  destruct (A2 a ltac:(lia)) as (F1 & F2 & F3 & F4 & F5 & F6 & F7). repeat split; congruence.
Qed.
Lemma agree_le lo lo' h1 h2 : lo <= lo' -> agree lo h1 h2 -> agree lo' h1 h2.
Proof. intros L [A B]. split; auto. intros. apply B. lia. Qed.
Lemma agree_same lo h1 h2 : List.length h1 <= List.length h2 -> (forall a, a < List.length h1 -> nth_error h2 a = nth_error h1 a) -> agree lo h1 h2.
Proof.
  intros L E. split; [exact L|]. intros a Ha. replace (tab h2 a) with (tab h1 a); [apply same_data_refl|].
  unfold tab. specialize (E a ltac:(lia)). destruct (nth_error h1 a) as [t|] eqn:N; [|apply nth_error_None in N; lia].
  now rewrite (nth_error_nth _ _ _ N), (nth_error_nth _ _ _ E).
Qed.

(** ---------- copies above an address ---------- *)

Section Src.
Variable src : heap.

Definition cell_copied (R : ptr -> ptr -> Prop) (lo : nat) (h : heap) (v w : value) : Prop :=
  match v with
  | VTable (Some q) => exists q' : ptr, w = VTable (Some q') /\ lo <= q' < List.length h /\
                       (if is_nil (tab src q) then is_nil (tab h q') = true else R q q')
  | VTable None => False
  | _ => w = read_back v
  end.
Fixpoint copied (k : nat) (lo : nat) (h : heap) (p p' : ptr) : Prop :=
  match k with
  | O => False
  | S k' => let t := tab src p in let t' := tab h p' in
      lo <= p' < List.length h /\ is_nil t' = false /\ tname t' = tname t /\ cnames t' = cnames t /\ ctypes t' = ctypes t
      /\ struct_shape t' = struct_shape t /\ skeys t' = []
      /\ Forall2 (Forall2 (cell_copied (copied k' lo h) lo h)) (rows t) (rows t')
  end.

Lemma cell_copied_mono (R R' : ptr -> ptr -> Prop) lo lo' h h' v w : lo' <= lo -> agree lo h h' -> (forall q q', R q q' -> R' q q') ->
  cell_copied R lo h v w -> cell_copied R' lo' h' v w.
Proof.
  intros L [A1 A2] RR. destruct v as [| | | | | | |[q|]| |]; cbn [cell_copied]; auto. intros (q' & E & B & C). exists q'. split; [exact E|]. split; [lia|].
  destruct (is_nil (tab src q)); [|auto]. destruct (A2 q' B) as (_ & _ & _ & _ & _ & _ & N). congruence.
Qed.
Lemma copied_mono : forall k lo lo' h h' p p', lo' <= lo -> agree lo h h' -> copied k lo h p p' -> copied k lo' h' p p'.
Proof.
  induction k as [|k IH]; intros lo lo' h h' p p' L A C; [exact C|]. cbn [copied] in *. cbv zeta in *.
  destruct C as (B & N & C1 & C2 & C3 & C4 & C5 & F). destruct (proj2 A p' B) as (E1 & E2 & E3 & E4 & E5 & E6 & E7). destruct A as [A1 A2].
  rewrite E1, E2, E3, E4, E5, E6, E7. repeat split; auto; try lia.
  eapply Forall2_impl; [|exact F]. intros ra rb G. eapply Forall2_impl; [|exact G]. intros v w. apply cell_copied_mono; auto; [split; auto|]. intros q q' Q. eapply IH; eauto. split; auto.
Qed.
Lemma copied_deep : forall k lo h p p', copied k lo h p p' -> deep_copy src h p p'.
Proof.
  induction k as [|k IH]; intros lo h p p' C; [contradiction|]. cbn [copied] in C. cbv zeta in C. destruct C as (B & N & C1 & C2 & C3 & C4 & C5 & F).
  constructor; auto. eapply Forall2_impl; [|exact F]. intros ra rb G. eapply Forall2_impl; [|exact G]. clear - IH. intros v w CC.
  destruct v as [| | | | | | |[q|]| |]; cbn [cell_copied] in CC; try (subst w; apply same_plain; discriminate); [|contradiction].
  destruct CC as (q' & -> & B & C). destruct (is_nil (tab src q)) eqn:Nq; [now apply same_nil|]. apply same_nested; eauto.
Qed.

(** ---------- the table under construction ---------- *)

Definition built (s : table) (cns cts : list string) (rs : list (list value)) (t : table) : Prop :=
  tname t = tname s /\ cnames t = cns /\ ctypes t = cts /\ rows t = rs /\ struct_shape t = struct_shape s /\ skeys t = [] /\ is_nil t = false.
Record building (h0 : heap) (s : table) (rs : list (list value)) (h : heap) : Prop := {
  bu_wf : wf_heap h;
  bu_len : List.length h0 < List.length h;
  bu_old : forall a, a < List.length h0 -> nth_error h a = nth_error h0 a;
  bu_tab : built s (cnames s) (ctypes s) rs (tab h (List.length h0)) }.

Lemma add_columns h0 s cns : forall cts t cns0 cts0, wf_heap (h0 ++ [t]) -> built s cns0 cts0 [] t -> List.length cns = List.length cts ->
  NoDup (cns0 ++ cns) -> Forall valid_name cns -> Forall (fun ct => In ct all_types) cts ->
  exists t', hfor (map (fun c => JObj [(fst c, JStr (snd c))]) (combine cns cts)) (add_column (List.length h0)) (h0 ++ [t]) = (h0 ++ [t'], Ok tt)
    /\ wf_heap (h0 ++ [t']) /\ built s (cns0 ++ cns) (cts0 ++ cts) [] t'.
Proof.
  induction cns as [|cn cns IH]; intros [|ct cts] t cns0 cts0 WH B L D V T; try discriminate.
  - exists t. cbn. rewrite !app_nil_r. auto.
  - destruct B as (B1 & B2 & B3 & B4 & B5 & B6 & B7).
    assert (W : wf_table t). { pose proof (wh_tables _ WH) as F. apply Forall_app in F as [_ F]. now inversion F. }
    apply NoDup_remove in D as D'. destruct D' as [_ D'].
    assert (C : can_append_col t cn ct = true).
    { unfold can_append_col. rewrite B7, (proj2 (IsValidColName_spec cn) (Forall_inv V)), (proj2 (IsValidColType_spec ct) (Forall_inv T)). cbn [negb andb].
      destruct (mget (cmap t) cn) as [i|] eqn:G; [|reflexivity]. apply (wf_map _ W) in G. exfalso. apply D'. rewrite in_app_iff. left.
      rewrite <- B2. now apply nth_error_In in G. }
    set (t1 := s_tab (col_added cn ct (mkS t (List.length (h0 ++ [t])) []))).
    assert (E : add_column (List.length h0) (JObj [(cn, JStr ct)]) (h0 ++ [t]) = (h0 ++ [t1], Ok tt)).
    { unfold add_column. cbn [last]. unfold on_heap. rewrite nth_error_app2, Nat.sub_diag by auto. cbn [nth_error].
      rewrite AppendCol_eq by exact W. cbn [s_tab]. rewrite C. fold t1.
      replace (s_news (col_added cn ct (mkS t (List.length (h0 ++ [t])) []))) with (@nil bool)
        by (unfold col_added; cbn [s_news s_tab]; rewrite B4; destruct (is_tab ct); reflexivity).
      unfold new_nils. cbn [map]. rewrite app_nil_r. f_equal. apply upd_app_mid. }
    assert (WH1 : wf_heap (h0 ++ [t1])).
    { pose proof (on_heap_wf (List.length h0) (AppendCol cn ct) _ WH (pres_AppendCol _ cn ct)) as [X _].
      change (on_heap (List.length h0) (AppendCol cn ct) (h0 ++ [t])) with (add_column (List.length h0) (JObj [(cn, JStr ct)]) (h0 ++ [t])) in X.
      rewrite E in X. exact X. }
    destruct (IH cts t1 (cns0 ++ [cn]) (cts0 ++ [ct]) WH1) as (t' & E' & W' & B').
    + unfold t1, col_added. cbn [s_tab]. repeat split; cbn [tname cnames ctypes rows struct_shape skeys is_nil]; auto; rewrite ?B2, ?B3, ?B4; reflexivity.
    + now injection L.
    + now rewrite <- app_assoc.
    + now apply Forall_inv_tail in V.
    + now apply Forall_inv_tail in T.
    + exists t'. rewrite <- !app_assoc in B'. split; [|auto]. cbn [combine map hfor fst snd]. unfold hbind. rewrite E. exact E'.
Qed.

Lemma put_last i w (done : list (list value)) r : put i (List.length done) w (done ++ [r]) = done ++ [upd r i w].
Proof.
  unfold put. rewrite nth_error_app2, Nat.sub_diag by auto. cbn [nth_error]. apply upd_app_mid.
Qed.

(** Setting one cell of the last row *)
Lemma set_last h0 s done r h i ct vt w : building h0 s (done ++ [r]) h -> i < List.length (cnames s) -> nth_error (ctypes s) i = Some ct ->
  In vt all_types -> arg_of_type vt w = true -> not_nil_arg w = true -> has_type ct w -> go_value w = true -> ptr_lt (List.length h) w ->
  exists h', on_heap (List.length h0) (SetTByColIndex vt (Z.of_nat i) (Z.of_nat (List.length done)) w) h = (h', Ok tt) /\
    building h0 s (done ++ [upd r i w]) h' /\ List.length h' = List.length h /\ (forall a, a <> List.length h0 -> tab h' a = tab h a).
Proof.
  intros [WH L O (B1 & B2 & B3 & B4 & B5 & B6 & B7)] Hi T IV AT NA HT GV PL. set (p1 := List.length h0) in *. set (t := tab h p1) in *.
  assert (Np : nth_error h p1 = Some t) by (destruct (nth_error h p1) eqn:X; [unfold t, tab; now rewrite (nth_error_nth _ _ _ X)|apply nth_error_None in X; lia]).
  destruct (tab_wf h p1 WH) as [W _]. fold t in W.
  assert (E : SetTByColIndex vt (Z.of_nat i) (Z.of_nat (List.length done)) w (mkS t (List.length h) []) = (Proofs_Cells.written i (List.length done) w (mkS t (List.length h) []), Ok tt)).
  { destruct (SetTByColIndex_eq vt (Z.of_nat i) (Z.of_nat (List.length done)) w (mkS t (List.length h) []) W IV AT) as [(ct' & _ & _ & _ & _ & E)|[No _]].
    - cbn [s_tab]. unfold ColCount. rewrite B2. lia.
    - rewrite !Nat2Z.id in E. exact E.
    - elim No. exists ct. cbn [s_tab]. unfold RowCount. rewrite B3, B4, Nat2Z.id, app_length. cbn [List.length]. repeat split; auto; lia. }
  exists (upd h p1 (with_rows (done ++ [upd r i w]) t)).
  assert (EH : on_heap p1 (SetTByColIndex vt (Z.of_nat i) (Z.of_nat (List.length done)) w) h = (upd h p1 (with_rows (done ++ [upd r i w]) t), Ok tt)).
  { unfold on_heap. rewrite Np, E. unfold Proofs_Cells.written, on_tab. cbn [s_tab s_news]. rewrite B4, put_last. unfold new_nils. cbn [map]. now rewrite app_nil_r. }
  split; [exact EH|]. split; [|split; [apply upd_length|intros a Na; now apply tab_upd_other]]. constructor.
  - pose proof (on_heap_wf p1 (SetTByColIndex vt (Z.of_nat i) (Z.of_nat (List.length done)) w) h WH (pres_SetTByColIndex _ vt _ _ w IV AT GV PL)) as [X _]. rewrite EH in X. exact X.
  - rewrite upd_length. exact L.
  - intros a Ha. rewrite nth_error_upd_ne by (unfold p1; lia). now apply O.
  - fold p1. rewrite tab_upd_same by exact L. repeat split; auto.
Qed.

Lemma set_last_agree (h0 h h' : heap) : List.length h' = List.length h -> (forall a, a <> List.length h0 -> tab h' a = tab h a) -> agree (S (List.length h0)) h h'.
Proof. intros L E. split; [lia|]. intros a Ha. rewrite E by lia. apply same_data_refl. Qed.

(** What reading a nested table does *)
Definition table_read (ip : Z -> bool) (k : nat) (T : list (string * json) -> HM ptr) : Prop :=
  forall q m h, table_json k src q m -> q < List.length src -> is_nil (tab src q) = false -> json_table ip src q -> wf_heap h ->
  exists h', T m h = (h', Ok (List.length h)) /\ wf_heap h' /\ List.length h < List.length h' /\
    (forall a, a < List.length h -> nth_error h' a = nth_error h a) /\ copied k (List.length h) h' q (List.length h).

Lemma wf_nil_at h : wf_heap h -> wf_heap (h ++ [NewNilTable]).
Proof.
  intros WH. pose proof (new_tab_wf (ret tt) h WH) as X. destruct X as [X _]; [apply pres_ret|]. exact X.
Qed.

(** A table, new at the end of the heap, becomes the cell *)
Lemma nest_last h0 s done r h (q : ptr) i : building h0 s (done ++ [r]) h -> i < List.length (cnames s) -> nth_error (ctypes s) i = Some "*Table" ->
  List.length h0 < q < List.length h ->
  exists h', SetTableByColIndex (List.length h0) (Z.of_nat i) (Z.of_nat (List.length done)) (Some q) h = (h', Ok tt) /\
    building h0 s (done ++ [upd r i (VTable (Some q))]) h' /\ agree (S (List.length h0)) h h'.
Proof.
  intros B Hi T Q. pose proof B as [WH L O B']. unfold SetTableByColIndex.
  destruct (set_parent_wf q (List.length h0) h WH L) as [WH1 L1].
  assert (B1 : building h0 s (done ++ [r]) (set_parent q (List.length h0) h)).
  { constructor; auto.
    - rewrite L1. exact L.
    - intros a Ha. unfold set_parent. rewrite nth_error_upd_ne by lia. now apply O.
    - unfold set_parent. rewrite tab_upd_other by lia. exact B'. }
  destruct (set_last h0 s done r _ i "*Table" "*Table" (VTable (Some q)) B1 Hi T) as (h' & E & B2 & L2 & A2); try reflexivity.
  - now apply str_in_In.
  - rewrite L1. exact (proj2 Q).
  - exists h'. split; [exact E|]. split; [exact B2|]. split; [lia|]. intros a Ha. rewrite A2 by lia. unfold set_parent.
    destruct (Nat.eq_dec a q) as [->|Ne]; [rewrite tab_upd_same by lia; repeat split|rewrite tab_upd_other by exact Ne; apply same_data_refl].
Qed.

Lemma rmap_numbers (l : list ascii) wild : exists fs, rmap number_of (map (fun c => JNum (dec_of (code c))) l) = Ok fs /\
  map (fun f => chr (float_to_int wild KUint8 f)) fs = l.
Proof.
  induction l as [|c l (fs & E & M)]; [exists []; auto|]. destruct (byte_read wild c) as (f & P & I).
  exists (f :: fs). cbn [map rmap number_of]. rewrite P. cbn [of_opt rbind]. rewrite E. cbn [rbind map]. rewrite I, M. auto.
Qed.

Lemma read_cell ip wild k T h0 s done r h i ct v j : table_read ip k T -> building h0 s (done ++ [r]) h ->
  i < List.length (cnames s) -> nth_error (ctypes s) i = Some ct -> cell_ok ct v -> json_value_ok ip ct v -> cell_json (table_json k src) src ct v j ->
  (forall q, v = VTable (Some q) -> q < List.length src /\ (is_nil (tab src q) = false -> json_table ip src q)) ->
  exists h' w, set_json wild T (List.length h0) (Z.of_nat i) (Z.of_nat (List.length done)) j h = (h', Ok tt) /\
    building h0 s (done ++ [upd r i w]) h' /\ agree (S (List.length h0)) h h' /\ cell_copied (copied k (S (List.length h0)) h') (S (List.length h0)) h' v w.
Proof.
  intros TR B Hi Tc [HT GV] JV CJ Nest. set (p1 := List.length h0) in *.
  assert (ZT : znth (ctypes (tab h p1)) (Z.of_nat i) = Some ct).
  { rewrite znth_of_nat. destruct (bu_tab _ _ _ _ B) as (_ & _ & X & _). fold p1 in X. now rewrite X. }
  assert (Set1 : forall vt w, In vt all_types -> arg_of_type vt w = true -> not_nil_arg w = true -> has_type ct w -> go_value w = true -> (forall o, v <> VTable o) -> w = read_back v ->
     exists h' w, on_heap p1 (SetTByColIndex vt (Z.of_nat i) (Z.of_nat (List.length done)) (read_back v)) h = (h', Ok tt) /\
       building h0 s (done ++ [upd r i w]) h' /\ agree (S p1) h h' /\ cell_copied (copied k (S p1) h') (S p1) h' v w).
  { intros vt w IV AT NA HTw GVw NT ->. destruct (set_last h0 s done r h i ct vt (read_back v) B Hi Tc IV AT NA HTw GVw) as (h' & E & B' & L' & A').
    - destruct v as [| | | | | |[|]|o| |]; cbn; auto. exfalso. eapply NT; reflexivity.
    - exists h', (read_back v). split; [exact E|]. split; [exact B'|]. split; [now apply set_last_agree|].
      destruct v as [| | | | | | |o| |]; cbn [cell_copied]; auto. exfalso. eapply NT; reflexivity. }
  unfold set_json. unfold hbind at 1. rewrite ZT. fold p1.
  destruct v as [| b|str|ik z|f|f|o|[q|]|tm|g]; try contradiction; cbn [cell_json] in CJ.
  - subst j. cbn [has_type] in HT. subst ct. apply (Set1 "bool" (VBool b)); try reflexivity; [now apply str_in_In|discriminate].
  - subst j. cbn [has_type] in HT. subst ct. apply (Set1 "string" (VString str)); try reflexivity; [now apply str_in_In|discriminate].
  - destruct (ct =? "rune")%string eqn:Er.
    + apply String.eqb_eq in Er. subst ct j. cbn in JV. assert (EK : ik = KInt32) by (destruct ik; cbn [has_type] in HT; try reflexivity; try discriminate; destruct HT; discriminate). subst ik.
      cbn match. change ("rune" =? "rune")%string with true. cbn match.
      assert (D : decode (encode z) = Some (z, String.length (encode z))).
      { rewrite <- (app_str_nil_r (encode z)) at 1. apply decode_encode. apply Proofs_JsonText.unicode_valid. apply JV. }
      rewrite D. apply (Set1 "rune" (VInt KInt32 z)); try reflexivity; [now apply str_in_In|now right|exact GV|discriminate].
    + subst j. cbn [json_value_ok] in JV. rewrite Er in JV. destruct (integer_read wild ik z GV JV) as (f & P & I).
      cbn match. unfold hbind, hlift, number_of. rewrite P. cbn [of_opt].
      assert (IK : int_kind ct = Some ik /\ In ct all_types /\ arg_of_type ct (VInt ik z) = true).
      { destruct ik; cbn [has_type] in HT; try (destruct HT as [HT|HT]); subst ct; try discriminate; repeat split; try reflexivity; now apply str_in_In. }
      destruct IK as (-> & IC & AC). rewrite I. apply (Set1 ct (VInt ik z)); auto; discriminate.
  - subst j. cbn [has_type] in HT. subst ct. destruct JV as [_ (g & P & Eg)]. cbn match. unfold hbind, hlift, number_of. rewrite P. cbn [of_opt].
    change (int_kind "float32") with (@None ikind). cbn match. change ("float32" =? "float32")%string with true. cbn match. rewrite Eg.
    apply (Set1 "float32" (VFloat32 f)); try reflexivity; [now apply str_in_In|exact GV|discriminate].
  - subst j. cbn [has_type] in HT. subst ct. cbn [json_value_ok] in JV. cbn match. unfold hbind, hlift, number_of.
    assert (P : ParseFloat F64 (format_short F64 f) = Some f).
    { apply ParseFloat_short; [now right|exact GV|]. destruct f; auto; contradiction. }
    rewrite P. cbn [of_opt]. change (int_kind "float64") with (@None ikind). cbn match. change ("float64" =? "float32")%string with false.
    change ("float64" =? "float64")%string with true. cbn match.
    apply (Set1 "float64" (VFloat64 f)); try reflexivity; [now apply str_in_In|exact GV|discriminate].
  - subst j. cbn match. unfold hbind, hlift. set (l := match o with Some l => l | None => [] end).
    destruct (rmap_numbers l wild) as (fs & E & M). rewrite E, M.
    assert (RB : VBytes (Some l) = read_back (VBytes o)) by (unfold l; destruct o; reflexivity). rewrite RB.
    apply (Set1 "[]byte" (VBytes (Some l))); try reflexivity; [now apply str_in_In|exact HT|discriminate|exact RB].
  - cbn [has_type] in HT. subst ct. destruct (Nest q eq_refl) as [Hq Jq]. destruct CJ as [[Nq ->]|[Nq (m & Tm & ->)]].
    + cbn match. change ("*Table" =? "*Table")%string with true. cbn match. unfold hbind.
      assert (NT : new_tab (ret tt) h = (h ++ [NewNilTable], Ok (List.length h))) by reflexivity. rewrite NT.
      assert (B1 : building h0 s (done ++ [r]) (h ++ [NewNilTable])).
      { destruct B as [WH L O B']. constructor.
        - now apply wf_nil_at.
        - rewrite app_length. cbn. lia.
        - intros a Ha. rewrite nth_error_app1 by lia. now apply O.
        - rewrite tab_old by exact L. exact B'. }
      destruct (nest_last h0 s done r (h ++ [NewNilTable]) (List.length h) i B1 Hi Tc) as (h' & E & B2 & A2).
      { rewrite app_length. cbn [List.length]. pose proof (bu_len _ _ _ _ B). lia. }
      exists h', (VTable (Some (List.length h))). fold p1 in E. split; [exact E|]. split; [exact B2|].
      assert (A1 : agree (S p1) h (h ++ [NewNilTable])).
      { apply agree_same; [rewrite app_length; lia|]. intros a Ha. now apply nth_error_app1. }
      split; [eapply agree_trans; eauto|]. cbn [cell_copied]. exists (List.length h). split; [reflexivity|]. rewrite Nq.
      pose proof (bu_len _ _ _ _ B) as LB. destruct A2 as [L2 A2]. rewrite app_length in L2. cbn [List.length] in L2. split; [unfold p1; lia|].
      destruct (A2 (List.length h)) as (_ & _ & _ & _ & _ & _ & N7). { rewrite app_length. cbn. unfold p1; lia. }
      rewrite N7. unfold tab. rewrite app_nth2, Nat.sub_diag by auto. reflexivity.
    + cbn match. change ("*Table" =? "*Table")%string with true. cbn match. unfold hbind.
      destruct (TR q m h Tm Hq Nq (Jq Nq) (bu_wf _ _ _ _ B)) as (h1 & E1 & WH1 & L1 & O1 & C1). rewrite E1.
      assert (B1 : building h0 s (done ++ [r]) h1).
      { destruct B as [WH L O B']. constructor; auto; [lia| |].
        - intros a Ha. rewrite O1 by lia. now apply O.
        - replace (tab h1 (List.length h0)) with (tab h (List.length h0)); [exact B'|]. unfold tab. specialize (O1 (List.length h0) L).
          destruct (nth_error h (List.length h0)) eqn:X; [|apply nth_error_None in X; lia]. now rewrite (nth_error_nth _ _ _ X), (nth_error_nth _ _ _ O1). }
      pose proof (bu_len _ _ _ _ B) as LB.
      destruct (nest_last h0 s done r h1 (List.length h) i B1 Hi Tc) as (h' & E & B2 & A2); [lia|].
      exists h', (VTable (Some (List.length h))). fold p1 in E, A2, LB. split; [exact E|]. split; [exact B2|].
      assert (A1 : agree (S p1) h h1) by (apply agree_same; [lia|exact O1]).
      split; [eapply agree_trans; eauto|]. cbn [cell_copied]. exists (List.length h). split; [reflexivity|]. rewrite Nq. split; [destruct A2; lia|].
      eapply copied_mono; [| |exact C1]; [lia|]. eapply agree_le; [|exact A2]. lia.
  - subst j. cbn [has_type] in HT. subst ct. cbn match. change ("time.Time" =? "rune")%string with false. change ("time.Time" =? "time.Time")%string with true. cbn match.
    cbn [json_value_ok] in JV. assert (NS : (0 <= tm_nsec tm < 1000000000)%Z). { cbn in GV. apply andb_true_iff in GV as [G1 G2]. apply Z.leb_le in G1. apply Z.ltb_lt in G2. lia. }
    unfold hbind, hlift. rewrite (time_back tm JV NS). cbn [of_opt].
    apply (Set1 "time.Time" (VTime tm)); try reflexivity; [now apply str_in_In|exact GV|discriminate].
Qed.

Lemma cell_mono k lo h h' v w : agree lo h h' -> cell_copied (copied k lo h) lo h v w -> cell_copied (copied k lo h') lo h' v w.
Proof. intros A. apply cell_copied_mono; auto. intros q q'. apply copied_mono; auto. Qed.

Lemma cons_app_mid {A} (l : list A) x l' : l ++ x :: l' = (l ++ [x]) ++ l'.
Proof. now rewrite <- app_assoc. Qed.

Lemma read_cells ip wild k T h0 s done : table_read ip k T ->
  forall ns cts vs js, row_json (table_json k src) src ns cts vs js -> forall pns pcts pre post h,
  cnames s = pns ++ ns -> ctypes s = pcts ++ cts -> List.length pns = List.length pre -> List.length pcts = List.length pre -> List.length post = List.length vs ->
  building h0 s (done ++ [pre ++ post]) h -> Forall2 cell_ok cts vs -> Forall2 (json_value_ok ip) cts vs ->
  (forall q, In (VTable (Some q)) vs -> q < List.length src /\ (is_nil (tab src q) = false -> json_table ip src q)) ->
  exists h' ws, hfor (combine (map Z.of_nat (seq (List.length pre) (List.length js))) js) (fun c =>
        match snd c with
        | JObj m => hfor m (fun kv => set_json wild T (List.length h0) (fst c) (Z.of_nat (List.length done)) (snd kv))
        | _ => hlift Panic
        end) h = (h', Ok tt) /\ building h0 s (done ++ [pre ++ ws]) h' /\ agree (S (List.length h0)) h h' /\ Forall2 (cell_copied (copied k (S (List.length h0)) h') (S (List.length h0)) h') vs ws.
Proof.
  intros TR. induction 1 as [|n ns ct cts v vs j js CJ RJ IH]; intros pns pcts pre post h En Et Ln Lt Lp B CO JO Nest.
  - exists h, []. cbn. destruct post; [|discriminate]. repeat split; auto; try apply B; try apply same_data_refl.
  - destruct post as [|x post]; [discriminate|]. inversion CO; subst. inversion JO; subst.
    destruct (read_cell ip wild k T h0 s done (pre ++ x :: post) h (List.length pre) ct v j TR B) as (h1 & w & E & B1 & A1 & C1); auto.
    + rewrite En, app_length. cbn [List.length]. lia.
    + rewrite Et, nth_error_app2 by lia. now rewrite Lt, Nat.sub_diag.
    + intros q ->. apply Nest. now left.
    + rewrite upd_app_mid, (cons_app_mid pre w post) in B1.
      destruct (IH (pns ++ [n]) (pcts ++ [ct]) (pre ++ [w]) post h1) as (h2 & ws & E2 & B2 & A2 & C2); auto; rewrite ?app_length; cbn [List.length]; auto; try lia; try (intros q I; apply Nest; now right).
      * now rewrite <- cons_app_mid.
      * now rewrite <- cons_app_mid.
      * exists h2, (w :: ws). rewrite app_length, Nat.add_1_r in E2. rewrite (cons_app_mid pre w ws).
        split; [|split; [exact B2|split; [eapply agree_trans; eauto|constructor; auto; eapply cell_mono; eauto]]].
        cbn [List.length seq map combine hfor fst snd]. unfold hbind at 1. cbn [hfor snd]. unfold hbind at 1. rewrite E. exact E2.
Qed.

Lemma zeros_len p cts : List.length (Proofs_Table.zeros p cts) = List.length cts.
Proof. revert p. induction cts as [|ct cts IH]; intros p; cbn; auto. destruct (is_tab ct); cbn; now rewrite IH. Qed.

Lemma append_row h0 s done h : building h0 s done h -> exists h' z, on_heap (List.length h0) AppendRow h = (h', Ok tt) /\ building h0 s (done ++ [z]) h' /\ agree (S (List.length h0)) h h' /\ List.length z = List.length (ctypes s).
Proof.
  intros [WH L O (B1 & B2 & B3 & B4 & B5 & B6 & B7)]. set (p1 := List.length h0) in *. set (t := tab h p1) in *.
  assert (Np : nth_error h p1 = Some t) by (destruct (nth_error h p1) eqn:X; [unfold t, tab; now rewrite (nth_error_nth _ _ _ X)|apply nth_error_None in X; lia]).
  destruct (tab_wf h p1 WH) as [W _]. fold t in W.
  set (s0 := mkS t (List.length h) []). set (z := Proofs_Table.zeros (next s0) (ctypes t)).
  assert (EH : on_heap p1 AppendRow h = (upd h p1 (with_rows (done ++ [z]) t) ++ new_nils p1 (repeat true (ntab (ctypes t))), Ok tt)).
  { unfold on_heap. rewrite Np, AppendRow_eq by exact W. cbn [s_tab]. rewrite B7. unfold row_added. cbn [s_tab s_news app]. rewrite B4. reflexivity. }
  exists (upd h p1 (with_rows (done ++ [z]) t) ++ new_nils p1 (repeat true (ntab (ctypes t)))), z. split; [exact EH|].
  split; [constructor|split; [split|]].
  - pose proof (on_heap_wf p1 AppendRow h WH (pres_AppendRow _)) as [X _]. rewrite EH in X. exact X.
  - rewrite app_length, upd_length. fold p1. lia.
  - intros a Ha. rewrite nth_error_app1 by (rewrite upd_length; unfold p1 in *; lia). rewrite nth_error_upd_ne by (unfold p1; lia). now apply O.
  - fold p1. rewrite tab_old by (rewrite upd_length; exact L). rewrite tab_upd_same by exact L. repeat split; auto.
  - rewrite app_length, upd_length. lia.
  - intros a Ha. rewrite tab_old by (rewrite upd_length; lia). rewrite tab_upd_other by lia. apply same_data_refl.
  - unfold z. now rewrite zeros_len, B3.
Qed.

Lemma read_rows ip wild k T h0 s : table_read ip k T -> List.length (cnames s) = List.length (ctypes s) ->
  forall rs data, Forall2 (row_json (table_json k src) src (cnames s) (ctypes s)) rs data -> forall done h,
  building h0 s done h -> Forall (Forall2 cell_ok (ctypes s)) rs -> Forall (Forall2 (json_value_ok ip) (ctypes s)) rs ->
  (forall r q, In r rs -> In (VTable (Some q)) r -> q < List.length src /\ (is_nil (tab src q) = false -> json_table ip src q)) ->
  exists h' ws, hfor (combine (map Z.of_nat (seq (List.length done) (List.length data))) (map JArr data)) (fun r => add_row wild T (List.length h0) (fst r) (snd r)) h = (h', Ok tt)
    /\ building h0 s (done ++ ws) h' /\ agree (S (List.length h0)) h h' /\ Forall2 (Forall2 (cell_copied (copied k (S (List.length h0)) h') (S (List.length h0)) h')) rs ws.
Proof.
  intros TR LL. induction 1 as [|r js rs data RJ F IH]; intros done h B CO JO Nest.
  - exists h, []. cbn. rewrite app_nil_r. repeat split; auto; try apply B; try apply same_data_refl.
  - destruct (append_row h0 s done h B) as (h1 & z & E1 & B1 & A1 & Lz).
    pose proof (Forall_inv CO) as CO1. pose proof (Forall_inv JO) as JO1.
    destruct (read_cells ip wild k T h0 s done TR _ _ _ _ RJ [] [] [] z h1) as (h2 & ws & E2 & B2 & A2 & C2); auto.
    + rewrite Lz. now apply Forall2_len in CO1.
    + intros q I. apply (Nest r); auto. now left.
    + destruct (IH (done ++ [ws]) h2) as (h3 & wss & E3 & B3 & A3 & C3); auto.
      * now apply Forall_inv_tail in CO.
      * now apply Forall_inv_tail in JO.
      * intros r' q I. apply Nest. now right.
      * exists h3, (ws :: wss). rewrite <- cons_app_mid in B3. split; [|split; [exact B3|split]].
        { cbn [List.length seq map combine hfor fst snd]. unfold hbind at 1. unfold add_row at 1. unfold hbind at 1. rewrite E1.
          unfold numbered, zseq. cbn [List.length] in E2. rewrite E2. rewrite app_length, Nat.add_1_r in E3. exact E3. }
        { eapply agree_trans; [exact A1|]. eapply agree_trans; eauto. }
        { constructor; auto. eapply Forall2_impl; [|exact C2]. intros v w. apply cell_mono. exact A3. }
Qed.

Lemma nests_valid h p q : nests h p q -> wf_heap h -> q < List.length h.
Proof.
  intros (t & N & Q) WH. pose proof (proj2 (tab_wf h p WH)) as P. unfold tab in P. rewrite (nth_error_nth _ _ _ N) in P.
  exact (proj1 (nested_lt _ _) P _ Q).
Qed.

Lemma read_table ip wild : wf_heap src -> forall k fuel, k <= fuel -> table_read ip k (newTableFromJSON_recursive fuel wild).
Proof.
  intros WS. induction k as [|k IH]; intros fuel Lk p m h0 TJ Hp Np JT WH; [contradiction|].
  destruct fuel as [|fuel]; [lia|]. cbn [table_json] in TJ. destruct TJ as (data & -> & RJ).
  destruct (tab_wf src p WS) as [W _]. set (s := tab src p) in *.
  assert (TR : table_read ip k (newTableFromJSON_recursive fuel wild)) by (apply IH; lia).
  destruct (wf_name _ W) as [[_ Vn]|[Nn _]]; [|congruence].
  cbn [newTableFromJSON_recursive]. set (m := members_json s (map JArr data)).
  assert (G0 : jget m "tableName" = Some (JStr (tname s))) by reflexivity.
  assert (G1 : jget_arr m "metadata" = Some (map (fun c => JObj [(fst c, JStr (snd c))]) (combine (cnames s) (ctypes s))))
    by (unfold m, members_json, jget_arr; destruct (struct_shape s); reflexivity).
  assert (G2 : jget_arr m "data" = Some (map JArr data)) by (unfold m, members_json, jget_arr; destruct (struct_shape s); reflexivity).
  assert (G3 : jget m "isStructShape" = if struct_shape s then Some (JBool true) else None) by (unfold m, members_json; destruct (struct_shape s); reflexivity).
  rewrite G0, G1, G2, G3. clear G0 G1 G2 G3. clearbody m.
  set (t0 := with_nil false (with_name (tname s) NewNilTable)).
  assert (E0 : new_tab (SetName (tname s)) h0 = (h0 ++ [t0], Ok (List.length h0))).
  { unfold new_tab. rewrite SetName_eq, (proj2 (IsValidTableName_spec _) Vn). reflexivity. }
  assert (WH0 : wf_heap (h0 ++ [t0])).
  { pose proof (new_tab_wf (SetName (tname s)) h0 WH (pres_SetName _ _)) as [X _]. rewrite E0 in X. exact X. }
  unfold hbind at 1. rewrite E0.
  assert (Shape : exists t1, (match (if struct_shape s then Some (JBool true) else None) with
      | Some (JBool b) => on_heap (List.length h0) (SetStructShape b) | _ => hret tt end) (h0 ++ [t0]) = (h0 ++ [t1], Ok tt) /\ wf_heap (h0 ++ [t1]) /\ built s [] [] [] t1).
  { destruct (struct_shape s) eqn:ES.
    - assert (EH : on_heap (List.length h0) (SetStructShape true) (h0 ++ [t0]) = (h0 ++ [with_shape true t0], Ok tt)).
      { unfold on_heap. rewrite nth_error_app2, Nat.sub_diag by auto. cbn [nth_error]. unfold SetStructShape, modify, on_tab. cbn [s_tab s_news].
        unfold new_nils. cbn [map]. rewrite app_nil_r. f_equal. apply upd_app_mid. }
      exists (with_shape true t0). split; [exact EH|]. split; [|repeat split; auto].
      pose proof (on_heap_wf (List.length h0) (SetStructShape true) _ WH0 (pres_SetStructShape _ true)) as [X _]. rewrite EH in X. exact X.
    - exists t0. split; [reflexivity|]. split; [exact WH0|repeat split; auto]. }
  destruct Shape as (t1 & E1 & WH1 & BT1). unfold hbind at 1. rewrite E1.
  unfold hlift at 1. cbn [of_opt]. unfold hbind at 1. unfold hbind at 1.
  destruct (add_columns h0 s (cnames s) (ctypes s) t1 [] [] WH1 BT1) as (t2 & E2 & WH2 & BT2); try apply W.
  { symmetry. apply W. }
  rewrite E2. cbn [app] in BT2.
  assert (B2 : building h0 s [] (h0 ++ [t2])).
  { constructor; auto.
    - rewrite app_length. cbn. lia.
    - intros a Ha. now apply nth_error_app1.
    - unfold tab. rewrite app_nth2, Nat.sub_diag by auto. exact BT2. }
  destruct (JT p (rt_refl _ _ p) Np) as (_ & _ & JV). fold s in JV.
  destruct (read_rows ip wild k _ h0 s TR (eq_sym (wf_types_len _ W)) _ _ RJ [] (h0 ++ [t2]) B2) as (h3 & ws & E3 & B3 & A3 & C3); auto.
  { apply W. }
  { intros r q R Q. assert (N : nests src p q).
    { exists s. split; [unfold s, tab; now apply nth_error_nth'|]. unfold nested_in. apply in_flat_map. exists r. split; [exact R|].
      apply in_flat_map. exists (VTable (Some q)). split; [exact Q|now left]. }
    split; [now apply (nests_valid _ _ _ N)|]. intros Nq q' Hq Nq'.
    apply (JT q'); auto. eapply rt_trans; [apply rt_step; exact N|exact Hq]. }
  cbn [List.length] in E3. unfold numbered, zseq. rewrite map_length. unfold hbind. rewrite E3.
  exists h3. split; [reflexivity|]. destruct B3 as [WH3 L3 O3 (D1 & D2 & D3 & D4 & D5 & D6 & D7)]. split; [exact WH3|]. split; [exact L3|]. split; [exact O3|].
  cbn [copied]. cbv zeta. fold s. rewrite D1, D2, D3, D4, D5, D6, D7. repeat split; auto.
  cbn [app]. eapply Forall2_impl; [|exact C3]. intros ra rb G. eapply Forall2_impl; [|exact G]. intros v w.
  apply cell_copied_mono; [lia|apply agree_refl|]. intros q q'. apply copied_mono; [lia|apply agree_refl].
Qed.
End Src.
