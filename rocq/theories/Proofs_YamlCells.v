(** Proofs_YamlCells.v -- the cells of the tables that the YAML reader makes (C50). *)
From Coq Require Import ZArith NArith List String Ascii Bool Lia SpecFloat Arith.
From Verif Require Import Base Model_Names Model_Table Model_Sort Model_Heap Model_TableSet Model_Lex Model_Float Model_Time
  Model_Parser Model_Print Model_Json Model_Yaml Spec Spec_Heap Spec_Walk Spec_TableSet Spec_Round Spec_Decimal Spec_Foreign Spec_JsonCells Spec_YamlCells.
From Verif Require Import Proofs_Lib Proofs_Table Proofs_Cells Proofs_Struct Proofs_Api Proofs_Pres Samples Proofs_Heap
  Proofs_Frame Proofs_TableSet Proofs_Lex Proofs_Num Proofs_Float Proofs_Parser Proofs_JsonWrite Proofs_Closest Proofs_Foreign Proofs_JsonRead Proofs_JsonCells.
Import ListNotations.
Local Open Scope string_scope.
Local Open Scope list_scope.

Scheme ds_ind := Induction for doc_says Sort Prop
  with dc_ind := Induction for doc_cell Sort Prop.
Combined Scheme docs_ind from ds_ind, dc_ind.

Lemma docs_kept h h1 : List.length h <= List.length h1 ->
  (forall m q, doc_says h m q -> q < List.length h -> same_from q h h1 -> doc_says h1 m q)
  /\ (forall p ct o v, doc_cell h p ct o v -> same_from (S p) h h1 -> doc_cell h1 p ct o v).
Proof.
  intros L. apply docs_ind; unfold ptr in *.
  - intros m p Y N C R Lp S. destruct (S p ltac:(lia)) as (A1 & A2 & A3 & A4 & _ & _ & A7). apply doc_nameless; auto; congruence.
  - intros m p NE J R C IH Lp S. destruct (S p ltac:(lia)) as (A1 & A2 & A3 & A4 & _). apply doc_table.
    + now rewrite A1.
    + unfold yaml_table in *. now rewrite A1, A2, A3, A4.
    + now rewrite A3.
    + unfold cell_value in *. rewrite A3, A4. intros data kr cells kc ct v D N T V. eapply IH; eauto. intros z Lz. apply S. lia.
  - intros p ct v Z S. constructor. revert Z. apply zero_kept. intros q. now apply blank_kept.
  - constructor.
  - constructor.
  - constructor.
  - intros p ct k z w HT W S. now constructor.
  - intros p ct k z U HT S. now constructor.
  - constructor.
  - intros p f g F S. now constructor.
  - intros p z g F S. now constructor.
  - intros p ct l bs C F S. now constructor.
  - intros p m q Q T IH S. constructor; [unfold ptr in *; lia|]. apply IH; [lia|]. intros z Lz. apply S. lia.
Qed.

(** ---------- values ---------- *)

Lemma wraps_into k z : wraps k z (into_range k z).
Proof.
  split; [apply into_range_ok|]. unfold into_range. exists (- ((z - imin k) / 2 ^ ibits k))%Z.
  assert (0 < 2 ^ ibits k)%Z by (destruct k; cbn; lia). rewrite (Z.mod_eq (z - imin k) (2 ^ ibits k)) by lia. ring.
Qed.
Lemma float32_of_int_says z : rounds 24 128 (z <? 0)%Z (Z.abs z) 1 (float32_of_int z) \/ too_big 24 128 (Z.abs z) 1 /\ float32_of_int z = S754_infinity (z <? 0)%Z.
Proof.
  unfold float32_of_int. destruct (nearest F32 (z <? 0)%Z (Z.abs z) 1) as [g|] eqn:N.
  - left. apply (nearest_rounds F32 (or_introl eq_refl)) in N; auto; lia.
  - right. split; [|reflexivity]. apply (nearest_none F32 (or_introl eq_refl)) in N; auto; lia.
Qed.
Lemma yaml_bytes_says l bs : rmap (fun y => match y with YInt z => Ok (chr (into_range KUint8 z)) | _ => Panic end) l = Ok bs ->
  Forall2 (fun y c => exists z, y = YInt z /\ wraps KUint8 z (Z.of_nat (nat_of_ascii c))) l bs.
Proof.
  intros E. apply rmap_inv in E. induction E as [|y c l bs N _ IH]; constructor; [|exact IH].
  destruct y as [|b|z|z|f|s|t|x|m|]; try discriminate. injection N as <-. exists z. split; [reflexivity|].
  pose proof (into_range_ok KUint8 z) as R.
  replace (Z.of_nat (nat_of_ascii (chr (into_range KUint8 z)))) with (into_range KUint8 z); [apply wraps_into|].
  rewrite <- (code_chr (into_range KUint8 z)) at 1.
  - unfold code. unfold nat_of_ascii. now rewrite N_nat_Z.
  - revert R. generalize (into_range KUint8 z). intros w R. unfold in_range in R. cbn in R. lia.
Qed.

Lemma set_in_range h h' (p : ptr) vt kc kr v : wf_heap h -> p < List.length h -> not_nil_arg v = true ->
  on_heap p (SetTByColIndex vt (Z.of_nat kc) (Z.of_nat kr) v) h = (h', Ok tt) -> kc < List.length (ctypes (tab h p)).
Proof.
  intros W P NN E. pose proof (nth_tab h p P) as N. pose proof (Forall_nth_error _ _ _ _ (wh_tables _ W) N) as WT.
  destruct (on_heap_self p (SetTByColIndex vt (Z.of_nat kc) (Z.of_nat kr) v) h _ N) as [_ R]. rewrite E in R. cbn [fst snd] in R.
  destruct (le_lt_dec (List.length (ctypes (tab h p))) kc) as [L|L]; [|exact L]. exfalso.
  rewrite (SetTByColIndex_panic vt (Z.of_nat kc) (Z.of_nat kr) v) in R; [discriminate|exact WT|exact NN|].
  unfold ColCount. cbn [s_tab]. rewrite <- (wf_types_len _ WT). lia.
Qed.

Definition reads_doc (T : list (string * ydoc) -> HM ptr) : Prop :=
  forall m h h' q, wf_heap h -> go_doc (YMap m) -> T m h = (h', Ok q) -> grown h h' /\ List.length h <= q < List.length h' /\ doc_says h' m q.

Lemma set_yaml_says h0 T (p : ptr) kc kr y h h' : grown h0 h -> List.length h0 <= p < List.length h -> reads_doc T -> go_doc y ->
  set_yaml T p (Z.of_nat kc) (Z.of_nat kr) y h = (h', Ok tt) ->
  exists ct v, nth_error (ctypes (tab h p)) kc = Some ct /\ changed h h' p kc kr /\ at_cell (tab h' p) kc kr = Some v /\ doc_cell h' p ct (Some y) v.
Proof.
  unfold ptr in *. intros G P RS GD E. pose proof (gr_wf _ _ G) as W. unfold set_yaml in E.
  assert (SP : forall vt v, In vt all_types -> arg_of_type vt v = true -> not_nil_arg v = true -> on_heap p (SetTByColIndex vt (Z.of_nat kc) (Z.of_nat kr) v) h = (h', Ok tt) ->
     (forall ct, has_type ct v -> doc_cell h' p ct (Some y) v) ->
     exists ct v, nth_error (ctypes (tab h p)) kc = Some ct /\ changed h h' p kc kr /\ at_cell (tab h' p) kc kr = Some v /\ doc_cell h' p ct (Some y) v).
  { intros vt v IV AT NN EE VS. pose proof (set_in_range h h' p vt kc kr v W ltac:(lia) NN EE) as K.
    destruct (set_plain h h' p vt kc kr v W ltac:(lia) IV AT K EE) as (ct1 & T1 & HT & C & V). exists ct1, v. auto. }
  assert (SN : forall vt, In vt all_types -> arg_of_type vt (VBytes None) = true -> on_heap p (SetTByColIndex vt (Z.of_nat kc) (Z.of_nat kr) (VBytes None)) h <> (h', Ok tt)).
  { intros vt IV AT EE. pose proof (nth_tab h p ltac:(lia)) as N. destruct (on_heap_self p (SetTByColIndex vt (Z.of_nat kc) (Z.of_nat kr) (VBytes None)) h _ N) as [_ R]. rewrite EE in R. discriminate. }
  assert (CT : forall f : string -> HM unit, (let^ ct := fun h => (h, match znth (ctypes (tab h p)) (Z.of_nat kc) with Some ct => Ok ct | None => Panic end) in f ct) h = (h', Ok tt) ->
     exists ct, nth_error (ctypes (tab h p)) kc = Some ct /\ f ct h = (h', Ok tt)).
  { intros f EE. apply hbind_ok in EE. destruct EE as (h1 & ct & E1 & E2). injection E1 as <- Z. rewrite znth_of_nat in Z.
    destruct (nth_error (ctypes (tab h p)) kc) as [ct1|] eqn:NT; [|discriminate]. injection Z as ->. eauto. }
  destruct y as [|b|z|z|f|s|t|l|m|].
  - apply CT in E. destruct E as (ct & _ & E). discriminate.
  - eapply SP; [| | |exact E|]; [now apply str_in_In|reflexivity..|]. intros ct ->. constructor.
  - apply CT in E. destruct E as (ct & NT & E). destruct (if ct =? "rune" then Some KInt32 else int_kind ct) as [k|] eqn:IK.
    + assert (H : In ct all_types /\ arg_of_type ct (VInt k (into_range k z)) = true).
      { destruct (String.eqb_spec ct "rune") as [->|]; [injection IK as <-; split; [now apply str_in_In|reflexivity]|]. apply int_kind_type in IK as [I A]. auto. }
      destruct H as [I A]. eapply SP; [exact I|exact A| |exact E|]; [reflexivity|]. intros ct' HT. constructor; [exact HT|apply wraps_into].
    + destruct (String.eqb_spec ct "float32") as [->|].
      * eapply SP; [| | |exact E|]; [now apply str_in_In|reflexivity..|]. intros ct' ->. constructor. apply float32_of_int_says.
      * destruct (ct =? "time.Time"); discriminate.
  - apply CT in E. destruct E as (ct & NT & E). destruct (String.eqb_spec ct "uint") as [->|].
    + eapply SP; [| | |exact E|]; [now apply str_in_In|reflexivity..|]. intros ct' HT. constructor; [|exact HT]. cbn in HT. auto.
    + destruct (String.eqb_spec ct "uint64") as [->|].
      * eapply SP; [| | |exact E|]; [now apply str_in_In|reflexivity..|]. intros ct' HT. constructor; [|exact HT]. cbn in HT. auto.
      * destruct (str_in ct asserted); [discriminate|]. destruct (String.eqb_spec ct "[]byte") as [->|]; cbn [orb] in E; [destruct (SN "[]byte" ltac:(now apply str_in_In) eq_refl E)|].
        destruct (String.eqb_spec ct "[]uint8") as [->|]; [destruct (SN "[]uint8" ltac:(now apply str_in_In) eq_refl E)|discriminate].
  - apply CT in E. destruct E as (ct & NT & E). destruct (String.eqb_spec ct "float32") as [->|].
    + eapply SP; [| | |exact E|]; [now apply str_in_In|reflexivity..|]. intros ct' ->. constructor. apply float32_says_of.
    + destruct (String.eqb_spec ct "float64") as [->|]; [|discriminate]. eapply SP; [| | |exact E|]; [now apply str_in_In|reflexivity..|]. intros ct' ->. constructor.
  - eapply SP; [| | |exact E|]; [now apply str_in_In|reflexivity..|]. intros ct ->. constructor.
  - eapply SP; [| | |exact E|]; [now apply str_in_In|reflexivity..|]. intros ct ->. constructor.
  - apply CT in E. destruct E as (ct & NT & E). destruct (str_in ct asserted); [discriminate|].
    assert (B : (ct = "[]byte" \/ ct = "[]uint8") /\ exists bs, rmap (fun y => match y with YInt z => Ok (chr (into_range KUint8 z)) | _ => Panic end) l = Ok bs
              /\ on_heap p (SetTByColIndex ct (Z.of_nat kc) (Z.of_nat kr) (VBytes (Some bs))) h = (h', Ok tt)).
    { destruct (String.eqb_spec ct "[]byte") as [->|]; cbn [orb] in E; [|destruct (String.eqb_spec ct "[]uint8") as [->|]; [|discriminate]];
        (split; [now (left + right)|]; apply hbind_ok in E; destruct E as (h1 & bs & E1 & E); unfold hlift in E1; injection E1 as <- E1; exists bs; auto). }
    destruct B as (C & bs & EB & E'). eapply SP; [| | |exact E'|]; [destruct C as [->| ->]; now apply str_in_In|destruct C as [->| ->]; reflexivity|reflexivity|].
    intros ct' HT. constructor; [exact HT|now apply yaml_bytes_says].
  - apply CT in E. destruct E as (ct & NT & E). destruct (String.eqb_spec ct "*Table") as [->|].
    + apply hbind_ok in E. destruct E as (h1 & q & E1 & E).
      assert (K : kc < List.length (ctypes (tab h p))) by (apply nth_error_Some; congruence).
      destruct (RS m h h1 q W GD E1) as (G1 & Q & TS). unfold ptr in *.
      assert (TP : tab h1 p = tab h p) by (apply tab_eq, (gr_old _ _ G1); lia).
      destruct (set_nested h1 h' p q kc kr (gr_wf _ _ G1) ltac:(lia) ltac:(lia) ltac:(now rewrite TP) E) as (_ & [C1 C2 C3 C4] & V).
      exists "*Table", (VTable (Some q)). split; [exact NT|]. split; [|split; [exact V|]].
      * constructor; [lia| | |].
        -- intros z Nz Lz. replace (tab h z) with (tab h1 z) by (apply tab_eq, (gr_old _ _ G1); lia). apply C2; lia.
        -- rewrite C3. unfold shape. now rewrite TP.
        -- now rewrite <- TP.
      * constructor; [unfold ptr; lia|]. apply (proj1 (docs_kept h1 h' C1) m q TS ltac:(lia)). intros z Lz. apply C2; lia.
    + destruct (str_in ct asserted); [discriminate|]. destruct (String.eqb_spec ct "[]byte") as [->|]; cbn [orb] in E; [destruct (SN "[]byte" ltac:(now apply str_in_In) eq_refl E)|].
      destruct (String.eqb_spec ct "[]uint8") as [->|]; [destruct (SN "[]uint8" ltac:(now apply str_in_In) eq_refl E)|discriminate].
  - apply CT in E. destruct E as (ct & NT & E). destruct (str_in ct asserted); [discriminate|].
    destruct (String.eqb_spec ct "[]byte") as [->|]; cbn [orb] in E; [destruct (SN "[]byte" ltac:(now apply str_in_In) eq_refl E)|].
    destruct (String.eqb_spec ct "[]uint8") as [->|]; [destruct (SN "[]uint8" ltac:(now apply str_in_In) eq_refl E)|discriminate].
Qed.

(** ---------- rows ---------- *)

Record drow_inv (h0 hr : heap) (p : ptr) (kr : nat) (cells : list ydoc) (k : nat) (h : heap) : Prop := {
  dr_grown : grown h0 h;
  dr_len : List.length hr <= List.length h;
  dr_shape : shape h p = shape hr p;
  dr_other : forall z, z <> p -> z < List.length hr -> same_data (tab hr z) (tab h z);
  dr_rows : forall c r, r <> kr -> at_cell (tab h p) c r = at_cell (tab hr p) c r;
  dr_width : k <= List.length (ctypes (tab hr p));
  dr_done : forall c ct v, c < k -> nth_error (ctypes (tab hr p)) c = Some ct -> at_cell (tab h p) c kr = Some v -> doc_cell h p ct (nth_error cells c) v;
  dr_rest : forall c ct v, k <= c -> nth_error (ctypes (tab hr p)) c = Some ct -> at_cell (tab h p) c kr = Some v -> zero_of (blank h p) ct v }.

Lemma drow_says h0 T (p : ptr) kr cells hr h' : reads_doc T -> reads_new_doc h0 T -> Forall go_doc cells -> grown h0 hr -> List.length h0 <= p < List.length hr ->
  (forall c ct v, nth_error (ctypes (tab hr p)) c = Some ct -> at_cell (tab hr p) c kr = Some v -> zero_of (blank hr p) ct v) ->
  hfor (numbered cells) (fun c => set_yaml T p (fst c) (Z.of_nat kr) (snd c)) hr = (h', Ok tt) ->
  drow_inv h0 hr p kr cells (List.length cells) h'.
Proof.
  unfold ptr in *. intros RS RN GC G P Z E. apply (hfor_numbered _ (drow_inv h0 hr p kr cells) cells hr h' E).
  - constructor; auto; try (intros; lia); [intros; apply same_data_refl|]. intros c ct v _. apply Z.
  - clear h' E. intros k y h h' N [I1 I2 I3 I4 I5 I6 I7 I8] E. cbn [fst snd] in E.
    assert (GY : go_doc y) by (rewrite Forall_forall in GC; apply GC; eapply nth_error_In; eauto).
    pose proof (shape_types _ _ _ I3) as CT.
    destruct (safe_set_yaml h0 T p (Z.of_nat k) (Z.of_nat kr) y (S p) ltac:(unfold ptr; lia) RN GY h I1 ltac:(lia)) as (G' & _ & _). rewrite E in G'. cbn [fst] in G'.
    destruct (set_yaml_says h0 T p k kr y h h' I1 ltac:(unfold ptr; lia) RS GY E) as (ct & v & NT & [C1 C2 C3 C4] & V & DC). rewrite CT in NT.
    assert (SF : same_from (S p) h h') by (intros z Lz; apply C2; lia).
    assert (Lk : k < List.length (ctypes (tab hr p))) by (apply nth_error_Some; congruence).
    constructor; [exact G'|lia|congruence|..].
    + intros z Nz Lz. eapply same_data_trans; [now apply I4|]. apply C2; [exact Nz|lia].
    + intros c r Nr. rewrite C4 by auto. now apply I5.
    + exact Lk.
    + intros c ct' v' Lc Tc Vc. destruct (Nat.eq_dec c k) as [->|Ne].
      * rewrite N. rewrite Tc in NT. injection NT as <-. rewrite V in Vc. injection Vc as <-. exact DC.
      * rewrite C4 in Vc by auto. apply (proj2 (docs_kept h h' C1)); [|exact SF]. apply I7; auto. lia.
    + intros c ct' v' Lc Tc Vc. rewrite C4 in Vc by (left; lia). apply (zero_kept (blank h p)); [intros q; now apply blank_kept|]. apply (I8 c); auto. lia.
Qed.

Record drows_inv (h0 : heap) (p : ptr) n cs ts (data : list (list ydoc)) (k : nat) (h : heap) : Prop := {
  ds_grown : grown h0 h;
  ds_len : p < List.length h;
  ds_shape : shape h p = (n, cs, ts, k);
  ds_width : forall kr cells, kr < k -> nth_error data kr = Some cells -> List.length cells <= List.length ts;
  ds_cells : forall kr cells kc ct v, kr < k -> nth_error data kr = Some cells -> nth_error ts kc = Some ct -> at_cell (tab h p) kc kr = Some v ->
     doc_cell h p ct (nth_error cells kc) v }.

Lemma drows_says h0 T (p : ptr) n cs ts data h h' : reads_doc T -> reads_new_doc h0 T -> Forall (Forall go_doc) data -> grown h0 h -> List.length h0 <= p < List.length h ->
  shape h p = (n, cs, ts, 0) -> hfor (numbered data) (fun r => add_yaml_row T p (fst r) (snd r)) h = (h', Ok tt) ->
  drows_inv h0 p n cs ts data (List.length data) h'.
Proof.
  unfold ptr in *. intros RS RN GD G P S E. apply (hfor_numbered _ (drows_inv h0 p n cs ts data) data h h' E).
  - constructor; auto; try (intros; lia).
  - destruct P as [P0 _]. clear h h' G S E. intros k cells h h' N [I1 I2 I3 I4 I5] E. cbn [fst snd] in E.
    assert (GC : Forall go_doc cells) by (rewrite Forall_forall in GD; apply GD; eapply nth_error_In; eauto).
    unfold add_yaml_row in E. apply hbind_ok in E. destruct E as (h1 & [] & E1 & E).
    destruct (AppendRow_shape h0 h h1 p I1 ltac:(unfold ptr; lia) E1) as (G1 & L1 & S1). rewrite I3 in S1.
    destruct (AppendRow_cells h0 h h1 p I1 ltac:(unfold ptr; lia) E1) as (A1 & A2 & A3).
    apply shape_tab in I3 as (_ & _ & _ & RL). rewrite RL in A2, A3.
    pose proof (drow_says h0 T p k cells h1 h' RS RN GC G1 ltac:(unfold ptr; lia) A3 E) as [R1 R2 R3 R4 R5 R6 R7 R8].
    pose proof S1 as S2. apply shape_tab in S2 as (_ & _ & St & _). rewrite St in *.
    assert (SF : same_from (S p) h h') by (intros z Lz; eapply same_data_trans; [apply A1; lia|apply R4; lia]).
    constructor.
    + exact R1.
    + lia.
    + congruence.
    + intros kr cells' L Nr. destruct (Nat.eq_dec kr k) as [->|Ne]; [congruence|]. apply (I4 kr); auto; lia.
    + intros kr cs' kc ct v L Nr Tc Vc. destruct (Nat.eq_dec kr k) as [->|Ne].
      * rewrite N in Nr. injection Nr as <-. destruct (le_lt_dec (List.length cells) kc) as [Le|Lt]; [|now apply R7].
        rewrite (proj2 (nth_error_None _ _) Le). constructor. now apply (R8 kc).
      * rewrite R5 in Vc by exact Ne. rewrite A2 in Vc by lia. apply (proj2 (docs_kept h h' ltac:(lia))); [|exact SF]. apply (I5 kr); auto. lia.
Qed.

(** ---------- tables and table sets ---------- *)

Lemma yaml_reads_says : forall fuel, reads_doc (newTableFromYAML_recursive fuel).
Proof.
  induction fuel as [|fuel IH]; intros m h h' p W GD E; [discriminate|].
  destruct (yaml_reads_new h (S fuel) 0 m GD h (grown_refl _ W) ltac:(lia)) as (G & L & Q). rewrite E in G, L, Q. cbn [fst snd] in *.
  destruct (Q p eq_refl) as [Q1 _]. split; [exact G|]. split; [exact Q1|].
  pose proof (yaml_table_read (S fuel) m h h' p W GD E) as J.
  cbn [newTableFromYAML_recursive] in E.
  destruct (yget m "tableName") as [[|x|z|z|f|n|t|l|m'|]|] eqn:TN; try discriminate.
  destruct (String.eqb_spec n "") as [->|NE].
  { injection E as <- <-. cbn [List.length new_nils map s_news s_tab]. apply doc_nameless; [exact TN|..]; unfold tab; rewrite app_nth2, Nat.sub_diag by lia; reflexivity. }
  apply hbind_ok in E. destruct E as (h1 & p1 & E1 & E).
  destruct (safe_new h 0 (SetName n) ltac:(intros; apply pres_SetName) ltac:(intros; apply above_SetName) h (grown_refl _ W) ltac:(lia)) as (G1 & L1 & Q2).
  rewrite E1 in G1, L1, Q2. cbn [fst snd] in *. destruct (Q2 p1 eq_refl) as [P1 _]. apply new_named in E1 as S1.
  apply hbind_ok in E. destruct E as (h2 & [] & E2 & E).
  destruct (struct_shape_kept h h1 h2 p1 (match yget m "isStructShape" with Some (YBool b) => Some b | _ => None end) G1 P1) as (G2 & L2 & S2).
  { rewrite <- E2. destruct (yget m "isStructShape") as [[|x|z|z|f|s|t|l|m'|]|]; reflexivity. }
  apply hbind_ok in E. destruct E as (h3 & meta & E3 & E). unfold hlift in E3. injection E3 as <- E3.
  apply hbind_ok in E. destruct E as (h4 & [] & E4 & E).
  destruct (cols_for h p1 (add_yaml_column p1) Spec_Foreign.yaml_column) with (l := meta) (h := h2) (h' := h4) as (G4 & L4 & new & F & S4); [|exact G2|lia|exact E4|].
  { intros x ha hb _ _ A. unfold add_yaml_column in A. destruct x as [|x|z|z|f|s|t|l|mm|]; try discriminate.
    destruct (last mm ("", YNull)) as [cn [|x|z|z|f|ct|t|l|m'|]] eqn:LA; try discriminate. exists cn, (trimQuote ct). split; [exists mm, ct; auto|exact A]. }
  rewrite S2, S1 in S4. cbn [app] in S4.
  apply hbind_ok in E. destruct E as (h5 & data & E5 & E). unfold hlift in E5. injection E5 as <- E5.
  pose proof (yaml_rows_go _ _ GD E5) as GR.
  apply hbind_ok in E. destruct E as (h6 & [] & E6 & E). injection E as <- <-.
  destruct (drows_says h (newTableFromYAML_recursive fuel) p1 n (map fst new) (map snd new) data h4 h6 IH ltac:(apply yaml_reads_new) GR G4 ltac:(lia) S4 E6) as [R1 R2 R3 R4 R5].
  apply shape_tab in R3 as (Nm & _ & T & _).
  assert (D : forall l, yget m "data" = Some (YList l) -> Forall2 (fun y cells => y = YList cells) l data).
  { intros l Y. unfold yaml_rows in E5. rewrite Y in E5. apply rmap_inv in E5. revert E5. clear. induction 1 as [|y c l r A _ IH]; constructor; auto.
    destruct y as [|x|z|z|f|s|t|c'|m|]; try discriminate. injection A as ->. reflexivity. }
  assert (D2 : forall l kr y, yget m "data" = Some (YList l) -> nth_error l kr = Some y -> exists cells, y = YList cells /\ nth_error data kr = Some cells /\ kr < List.length data).
  { intros l kr y Y N. specialize (D l Y). clear -D N. revert kr N. induction D as [|a b l r E F IH]; intros [|kr] N; try discriminate; cbn [nth_error List.length] in *.
    - injection N as <-. exists b. repeat split; auto. lia.
    - destruct (IH kr N) as (c & A & B & C). exists c. repeat split; auto. lia. }
  apply doc_table; [congruence|exact J|..].
  - intros l kr y Y N. destruct (D2 l kr y Y N) as (cells & -> & Nd & Lk). exists cells. split; [reflexivity|]. rewrite T. now apply (R4 kr).
  - rewrite T. intros l kr cells kc ct v Y N. destruct (D2 l kr _ Y N) as (cells' & [= <-] & Nd & Lk). now apply R5.
Qed.

Lemma tables_from_yaml_says : forall l s h h' s', wf_heap h -> go_doc (YList l) -> tables_from_yaml l s h = (h', Ok s') ->
  grown h h' /\ exists ps, ts_tables s' = ts_tables s ++ map Some ps
    /\ Forall2 (fun y (p : ptr) => exists m, y = YMap m /\ p < List.length h' /\ doc_says h' m p) l ps.
Proof.
  induction l as [|j l IH]; intros s h h' s' W GD E; cbn [tables_from_yaml] in E.
  - injection E as <- <-. split; [now apply grown_refl|]. exists []. rewrite app_nil_r. auto.
  - apply go_list in GD. apply Forall_cons_iff in GD as [Gj Gl]. apply go_list in Gl.
    destruct j as [|x|z|z|f|x|t|x|m|]; try discriminate. apply hbind_ok in E. destruct E as (h1 & q & E1 & E).
    destruct (yaml_reads_says (S (ydepth (YMap m))) m h h1 q W Gj E1) as (G1 & Q & TS).
    apply hbind_ok in E. destruct E as (h2 & s2 & E2 & E).
    pose proof (AppendTable_all h1 s (Some q) s2) as AA. destruct (AppendTable h1 s (Some q)) as [s1 x1]. injection E2 as <- X. destruct (AA X) as [T N].
    destruct (IH s2 h1 h' s' (gr_wf _ _ G1) Gl E) as (G2 & ps & T2 & F). split; [now apply (grown_trans _ h1)|].
    exists (q :: ps). split; [rewrite T2, T, <- app_assoc; reflexivity|]. constructor; [|exact F].
    exists m. split; [reflexivity|]. pose proof (gr_len _ _ G2). split; [lia|].
    apply (proj1 (docs_kept h1 h' ltac:(lia)) m q TS ltac:(lia)). intros z Lz.
    replace (tab h' z) with (tab h1 z) by (symmetry; apply tab_eq, (gr_old _ _ G2); lia). apply same_data_refl.
Qed.
