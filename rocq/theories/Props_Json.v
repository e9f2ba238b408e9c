(** Props_Json.v -- C29: JSON round trips of tables and table sets. *)
From Coq Require Import ZArith NArith List String Ascii Bool SpecFloat Lia Relations.
From Verif Require Import Base Model_Names Model_Table Model_Sort Model_Ops Model_Heap Model_TableSet Model_Lex Model_Float Model_Time
  Model_Parser Model_Print Model_Json Spec Spec_Sort Spec_Heap Spec_Walk Spec_Equals Spec_TableSet Spec_Text Spec_Json
  Proofs_Lib Proofs_Table Proofs_Cells Proofs_Struct Proofs_Api
  Proofs_Pres Proofs_Api2 Proofs_Copy Proofs_Env Proofs_Heap Proofs_Walk Proofs_Equals Proofs_TableSet Proofs_Lex Proofs_Lines Proofs_JsonText Proofs_JsonWrite Proofs_JsonRead Proofs_JsonTree
  Props_Heap Props_Equals.
Import ListNotations.
Local Open Scope string_scope.
Local Open Scope list_scope.

(** ---------- what is written ---------- *)

(** A table is written exactly when its nesting is a tree: when no table is met twice, be it
    because it is nested in itself or because it is nested in two places.  Otherwise the result
    is an error.  It is never a panic. *)
Theorem C29_written_exactly_trees : forall E ip h (p : ptr), env_ok E -> reachable E h -> p < List.length h ->
  (is_tree h p -> exists s, GetTableAsJSON ip h (Some p) = Ok s)
  /\ (~ is_tree h p -> GetTableAsJSON ip h (Some p) = Err).
Proof.
  intros E ip h p EO R L. pose proof (reachable_wf E h EO R) as WH. destruct (written_iff h WH ip p L) as [NP W].
  assert (X : GetTableAsJSON ip h (Some p) = let! s := getTableAsJSON_private ip h (Some p) in
     Ok ("{" ++ in_quotes "tableSetName" ++ ":" ++ Quote ip "" ++ "," ++ in_quotes "tables" ++ ":[" ++ String.concat "," [s] ++ "]}")%string).
  { unfold GetTableAsJSON, AppendTable. cbn [find_table NewTableSet ts_tables ts_name ts_file app].
    unfold GetTableSetAsJSON. cbn [ts_tables ts_name List.length]. change (zseq 1) with [0%Z]. cbn [rmap].
    change (GetTableByTableIndex {| ts_name := ""; ts_file := ""; ts_tables := [Some p] |} 0) with (Ok (Some p)). cbn [rbind].
    destruct (getTableAsJSON_private ip h (Some p)); reflexivity. }
  rewrite X. split.
  - intros T. apply W in T as (s & ->). cbn [rbind]. eauto.
  - intros T. destruct (getTableAsJSON_private ip h (Some p)) as [s| |]; [|reflexivity|congruence]. elim T. apply W. eauto.
Qed.

Lemma set_written h ip s : wf_heap h -> (forall o, In o (ts_tables s) -> exists p : ptr, o = Some p /\ p < List.length h) ->
  (Forall (fun o => exists p, o = Some p /\ is_tree h p) (ts_tables s) -> exists x, GetTableSetAsJSON ip h s = Ok x)
  /\ (~ Forall (fun o => exists p, o = Some p /\ is_tree h p) (ts_tables s) -> GetTableSetAsJSON ip h s = Err).
Proof.
  intros WH V. unfold GetTableSetAsJSON.
  assert (X : (Forall (fun o => exists p, o = Some p /\ is_tree h p) (ts_tables s) -> exists x, rmap (getTableAsJSON_private ip h) (ts_tables s) = Ok x)
    /\ (~ Forall (fun o => exists p, o = Some p /\ is_tree h p) (ts_tables s) -> rmap (getTableAsJSON_private ip h) (ts_tables s) = Err)).
  { induction (ts_tables s) as [|o l IH]; [split; [eexists; reflexivity|intros N; elim N; constructor]|].
    destruct IH as [IH1 IH2]; [intros; apply V; now right|]. destruct (V o (or_introl eq_refl)) as (p & -> & L).
    destruct (written_iff h WH ip p L) as [NP [W1 W2]]. cbn [rmap]. split.
    - intros F. inversion F as [|? ? (q & Q & T) F']; subst. injection Q as <-. destruct (W2 T) as (x & ->). destruct (IH1 F') as (y & ->). cbn [rbind]. eauto.
    - intros N. destruct (getTableAsJSON_private ip h (Some p)) as [x| |]; [|reflexivity|congruence]. cbn [rbind].
      rewrite IH2; [reflexivity|]. intros F. apply N. constructor; [|exact F]. exists p. split; [reflexivity|]. apply W1. eauto. }
  assert (Y : rmap (fun i => let! o := GetTableByTableIndex s i in getTableAsJSON_private ip h o) (zseq (List.length (ts_tables s))) = rmap (getTableAsJSON_private ip h) (ts_tables s)).
  { unfold GetTableByTableIndex, TableCount. generalize (getTableAsJSON_private ip h). intros f. unfold zseq.
    assert (G : forall pre l, rmap (fun i => let! o := if (i <? 0)%Z || (i >? Z.of_nat (List.length (pre ++ l)) - 1)%Z then Err else match znth (pre ++ l) i with Some o => Ok o | None => Panic end in f o)
         (map Z.of_nat (seq (List.length pre) (List.length l))) = rmap f l).
    { intros pre l. revert pre. induction l as [|o l IH]; intros pre; [reflexivity|]. cbn [List.length seq map rmap].
      replace ((Z.of_nat (List.length pre) <? 0)%Z || (Z.of_nat (List.length pre) >? Z.of_nat (List.length (pre ++ o :: l)) - 1)%Z) with false.
      - rewrite znth_of_nat, nth_error_app2, Nat.sub_diag by auto. cbn [nth_error rbind]. destruct (f o); cbn [rbind]; [|reflexivity|reflexivity].
        specialize (IH (pre ++ [o])). rewrite <- app_assoc, (app_length pre [o]) in IH. cbn [app List.length] in IH. rewrite Nat.add_1_r in IH. rewrite IH. reflexivity.
      - symmetry. apply orb_false_iff. split; [apply Z.ltb_ge; lia|]. rewrite Z.gtb_ltb. apply Z.ltb_ge. rewrite app_length. cbn [List.length]. lia. }
    exact (G [] (ts_tables s)). }
  rewrite Y. destruct X as [X1 X2]. split.
  - intros F. destruct (X1 F) as (x & ->). cbn [rbind]. eauto.
  - intros F. now rewrite (X2 F).
Qed.

(** The same of a table set. *)
Theorem C29_set_written_exactly_trees : forall E ip h s, env_ok E -> reachable E h ->
  (forall o, In o (ts_tables s) -> exists p : ptr, o = Some p /\ p < List.length h) ->
  (Forall (fun o => exists p, o = Some p /\ is_tree h p) (ts_tables s) -> exists x, GetTableSetAsJSON ip h s = Ok x)
  /\ (~ Forall (fun o => exists p, o = Some p /\ is_tree h p) (ts_tables s) -> GetTableSetAsJSON ip h s = Err).
Proof. intros E ip h s EO R V. apply set_written; [now apply (reachable_wf E h EO R)|exact V]. Qed.

(** ---------- round trip ---------- *)

(** The table can be written and its JSON text read: it is named, its nesting is a tree of at
    most 2499 levels, and its names and cells are as json_table says. *)
Definition json_ready (ip : Z -> bool) (h : heap) (p : ptr) : Prop :=
  p < List.length h /\ is_nil (tab h p) = false /\ is_tree h p /\ json_table ip h p
  /\ exists k, (Z.of_nat k <= 2499)%Z /\ depth_at_most k h p.

Lemma depth_le h : forall k k' p, k <= k' -> depth_at_most k h p -> depth_at_most k' h p.
Proof. induction k as [|k IH]; intros [|k'] p L D; try contradiction; [lia|]. cbn in *. intros q N NN. apply (IH k'); [lia|]. now apply D. Qed.
Lemma ready_deep ip h p : json_ready ip h p -> depth_at_most (Z.to_nat 2499) h p.
Proof. intros (_ & _ & _ & _ & k & K & D). eapply depth_le; [|exact D]. lia. Qed.

Section Read.
Variables (src : heap) (ip : Z -> bool) (wild : ikind -> spec_float -> Z) (k : nat).
Hypothesis WS : wf_heap src.
Hypothesis K : k <= max_depth.
Lemma read_tables : forall ps ms, Forall2 (table_json k src) ps ms -> Forall (fun p => p < List.length src /\ is_nil (tab src p) = false /\ json_table ip src p) ps ->
  forall lo pre pre' n f h, lo <= List.length h -> Forall2 (copied src k lo h) pre pre' -> NoDup (map (fun p => tname (tab src p)) (pre ++ ps)) -> wf_heap h ->
  exists h' qs, tables_from_json wild (map JObj ms) (mkTS n f (map Some pre')) h = (h', Ok (mkTS n f (map Some (pre' ++ qs))))
    /\ wf_heap h' /\ List.length h <= List.length h' /\ (forall a, a < List.length h -> nth_error h' a = nth_error h a)
    /\ Forall2 (copied src k lo h') (pre ++ ps) (pre' ++ qs).
Proof.
  induction 1 as [|p m ps ms TJ F IH]; intros C lo pre pre' n f h LO CP ND WH.
  - exists h, []. rewrite !app_nil_r in *. repeat split; auto; apply WH.
  - inversion C as [|? ? (L & NN & JT) C']; subst.
    destruct (read_table src ip wild WS k max_depth K p m h TJ L NN JT WH) as (h1 & E1 & WH1 & L1 & O1 & C1).
    assert (CP1 : Forall2 (copied src k lo h1) pre pre').
    { eapply Forall2_impl; [|exact CP]. intros a b. apply copied_mono; [lia|]. apply agree_same; [lia|exact O1]. }
    assert (C1' : copied src k lo h1 p (List.length h)) by (eapply copied_mono; [|apply agree_refl|exact C1]; lia).
    destruct (IH C' lo (pre ++ [p]) (pre' ++ [List.length h]) n f h1 ltac:(lia)) as (h2 & qs & E2 & WH2 & L2 & O2 & C2).
    + apply Forall2_app; [exact CP1|repeat constructor; exact C1'].
    + now rewrite <- app_assoc.
    + exact WH1.
    + exists h2, (List.length h :: qs). rewrite <- !app_assoc in C2. cbn [app] in C2.
      split; [|split; [exact WH2|split; [lia|split; [intros a Ha; rewrite O2 by lia; now apply O1|exact C2]]]].
      cbn [map tables_from_json]. unfold hbind at 1. rewrite E1. unfold hbind at 1.
      assert (NAME : forall a b, copied src k lo h1 a b -> tname (tab h1 b) = tname (tab src a)).
      { intros a b X. destruct k; [contradiction|]. cbn [copied] in X. apply X. }
      assert (FT : find_table h1 (tname (tab h1 (List.length h))) (map Some pre') = None).
      { rewrite (NAME _ _ C1'). rewrite map_app in ND. cbn [map] in ND. apply NoDup_remove_2 in ND.
        assert (N1 : ~ In (tname (tab src p)) (map (fun a => tname (tab src a)) pre)) by (intros I; apply ND, in_app_iff; now left).
        clear - CP1 N1 NAME. induction CP1 as [|a b pre pre' X _ IH]; [reflexivity|]. cbn [map find_table ref_name] in *.
        destruct (String.eqb_spec (tname (tab h1 b)) (tname (tab src p))) as [Q|Q]; [exfalso; apply N1; left; rewrite <- Q; symmetry; now apply NAME|].
        apply IH. intros I. apply N1. now right. }
      unfold AppendTable. cbn [ref_name ts_tables ts_name ts_file]. rewrite FT. cbn [rbind].
      rewrite map_app, <- app_assoc in E2. cbn [map app] in E2. exact E2.
Qed.
End Read.

(** The text of a table set is read as one value, with nothing behind it. *)
Lemma set_text ip h s x : wf_heap h -> json_text ip (ts_name s) ->
  Forall (fun o => exists p, o = Some p /\ json_ready ip h p) (ts_tables s) -> GetTableSetAsJSON ip h s = Ok x ->
  exists ps ms, ts_tables s = map Some ps /\ Forall (json_ready ip h) ps /\ Forall2 (table_json (Z.to_nat 2499) h) ps ms
    /\ x <> ""%string /\ skip x = x
    /\ json_value max_depth x = Some (JObj [("tableSetName", JStr (ts_name s)); ("tables", JArr (map JObj ms))], ""%string).
Proof.
  intros WH JN RD HX. set (k := Z.to_nat 2499).
  assert (exists ps, ts_tables s = map Some ps /\ Forall (json_ready ip h) ps) as (ps & TS & RP).
  { clear - RD. induction RD as [|o l (p & -> & R) _ (ps & -> & F)]; [exists []; split; [reflexivity|constructor]|]. exists (p :: ps). split; [reflexivity|now constructor]. }
  unfold GetTableSetAsJSON in HX. destruct (rmap _ _) as [txts| |] eqn:RM; cbn [rbind] in HX; try discriminate.
  apply rmap_inv in RM.
  assert (TX : exists ms, Forall2 (table_json k h) ps ms /\ Forall2 (reads (4 * k + 1)) txts (map JObj ms)).
  { rewrite TS, map_length in RM. apply (Forall2_zseq _ (fun p txt => exists m, table_json k h p m /\ reads (4 * k + 1) txt (JObj m))) in RM.
    - clear - RM. induction RM as [|p txt ps txts (m & A & B) _ (ms & C & D)]; [exists []; split; constructor|]. exists (m :: ms). split; constructor; auto.
    - intros i p txt N E. pose proof (Forall_nth_error _ _ _ _ RP N) as R. pose proof (nth_error_some_lt _ _ _ N) as LI.
      assert (G : GetTableByTableIndex s (Z.of_nat i) = Ok (Some p)).
      { unfold GetTableByTableIndex, TableCount. rewrite TS, map_length, znth_of_nat, nth_error_map, N.
        replace ((Z.of_nat i <? 0)%Z || (Z.of_nat i >? Z.of_nat (List.length ps) - 1)%Z) with false; [reflexivity|].
        symmetry. apply orb_false_iff. split; [apply Z.ltb_ge; lia|]. rewrite Z.gtb_ltb. apply Z.ltb_ge. lia. }
      rewrite G in E. cbn [rbind] in E. unfold getTableAsJSON_private in E. destruct (getTableAsJSON_recursive _ _ _ _ _) as [[u sn]| |] eqn:RC; cbn [rbind] in E; try discriminate.
      assert (txt = "{" ++ u ++ "}")%string as -> by (now injection E). pose proof (ready_deep _ _ _ R) as D. destruct R as (R1 & R2 & R3 & R4 & _).
      exact (table_text ip h WH k _ p [] u sn D R1 R2 R4 RC). }
  destruct TX as (ms & TJ & RT).
  set (mb := [mkMember (in_quotes "tableSetName") "tableSetName" (Quote ip (ts_name s)) (JStr (ts_name s));
              mkMember (in_quotes "tables") "tables" ("[" ++ String.concat "," txts ++ "]")%string (JArr (map JObj ms))]).
  assert (KT : forall key, all_c (fun c => ((32 <=? code c) && (code c <? 127))%Z) key = true -> all_c plain_char key = true -> exists body, in_quotes key = String dquote body /\ string_text body key).
  { intros key A B. eapply raw_text; [apply ascii_text with (ip := ip); exact A|exact B]. }
  assert (MB : Forall (member_ok (4 * k + 2)) mb).
  { constructor; [|constructor; [|constructor]]; (split; [apply KT; reflexivity|]); cbn [mb_text mb_value].
    - eapply reads_le; [|apply reads_Quote; exact JN]. lia.
    - replace (4 * k + 2) with (S (4 * k + 1)) by lia. apply reads_array. exact RT. }
  pose proof (reads_object _ _ MB) as [(c & r & HC & SP & _) RO].
  assert (EX : x = ("{" ++ String.concat "," (map member_text mb) ++ "}")%string).
  { unfold mb. cbn [map String.concat]. unfold member_text. cbn [mb_key_text mb_text].
    apply (f_equal (fun r => match r with Ok x => x | _ => "" end)) in HX. cbv beta iota in HX. rewrite <- HX. rewrite !app_str_assoc. reflexivity. }
  assert (LK : S (4 * k + 2) <= max_depth) by (unfold k, max_depth; lia).
  exists ps, ms. split; [exact TS|]. split; [exact RP|]. split; [exact TJ|]. split; [rewrite EX, HC; discriminate|].
  split; [rewrite EX, HC; now apply skip_not|]. rewrite EX. specialize (RO max_depth "" LK I). rewrite app_str_nil_r in RO. rewrite RO. reflexivity.
Qed.
Lemma set_read ip wild h s x : wf_heap h -> json_text ip (ts_name s) -> NoDup (set_names h s) ->
  Forall (fun o => exists p, o = Some p /\ json_ready ip h p) (ts_tables s) -> GetTableSetAsJSON ip h s = Ok x ->
  forall h2, wf_heap h2 -> exists h3 s', NewTableSetFromJSON wild x h2 = (h3, Ok s') /\ set_copy h h3 s s' /\ ts_file s' = ""
    /\ wf_heap h3 /\ List.length h2 <= List.length h3 /\ (forall a, a < List.length h2 -> nth_error h3 a = nth_error h2 a)
    /\ Forall (fun o => exists p : ptr, o = Some p /\ List.length h2 <= p < List.length h3) (ts_tables s').
Proof.
  intros WH JN ND RD HX h2 WH2. set (k := Z.to_nat 2499).
  destruct (set_text ip h s x WH JN RD HX) as (ps & ms & TS & RP & TJ & NX & SX & JX). fold k in TJ.
  assert (DE : json_decode x = Some [("tableSetName", JStr (ts_name s)); ("tables", JArr (map JObj ms))]).
  { unfold json_decode. rewrite SX, JX. reflexivity. }
  assert (NE : (x =? "")%string = false) by (now apply String.eqb_neq).
  assert (LK : S (4 * k + 2) <= max_depth) by (unfold k, max_depth; lia).
  destruct (read_tables h ip wild k WH ltac:(lia) ps ms TJ) with (lo := List.length h2) (pre := @nil ptr) (pre' := @nil ptr) (n := ts_name s) (f := "") (h := h2) as (h3 & qs & E3 & WH3 & L3 & O3 & C3).
  - eapply Forall_impl; [|exact RP]. intros p (R1 & R2 & R3 & R4 & _). auto.
  - reflexivity.
  - constructor.
  - cbn [app]. unfold set_names in ND. rewrite TS, map_map in ND. exact ND.
  - exact WH2.
  - cbn [app] in *. exists h3, (mkTS (ts_name s) "" (map Some qs)). split.
    + unfold NewTableSetFromJSON. rewrite NE. unfold hbind, hlift. rewrite DE. cbn [of_opt jget]. change ("tableSetName" =? "tableSetName")%string with true. cbn match.
      unfold jget_arr. cbn [jget]. change ("tableSetName" =? "tables")%string with false. change ("tables" =? "tables")%string with true. cbn match. exact E3.
    + split; [split; [reflexivity|]|].
      * cbn [ts_tables]. rewrite TS. clear - C3. induction C3 as [|p q ps qs C _ IH]; constructor; auto. exists p, q. split; [reflexivity|]. split; [reflexivity|]. eapply copied_deep; eauto.
      * split; [reflexivity|]. split; [exact WH3|]. split; [exact L3|]. split; [exact O3|]. cbn [ts_tables].
        clear - C3. unfold k in C3. revert C3. generalize (Z.to_nat 2499). intros d C3. induction C3 as [|p q ps qs C _ IH]; constructor; auto. exists q. split; [reflexivity|]. destruct d; [contradiction|]. cbn [copied] in C. apply C.
Qed.

(** A table set whose tables can be written and have different names is written, and reading the
    text, in any program state, gives a set with the same name that holds deep copies of the
    tables in order: same names, columns, cells and shapes, nested tables included.  The copies
    are new tables, no other table changes. *)
Theorem C29_round_trip : forall E ip wild h s, env_ok E -> reachable E h -> json_text ip (ts_name s) -> NoDup (set_names h s) ->
  Forall (fun o => exists p, o = Some p /\ json_ready ip h p) (ts_tables s) ->
  exists x, GetTableSetAsJSON ip h s = Ok x
    /\ forall h2, wf_heap h2 -> exists h3 s', NewTableSetFromJSON wild x h2 = (h3, Ok s')
         /\ set_copy h h3 s s' /\ wf_heap h3
         /\ Forall (fun o => exists p : ptr, o = Some p /\ List.length h2 <= p < List.length h3) (ts_tables s')
         /\ (forall a, a < List.length h2 -> nth_error h3 a = nth_error h2 a).
Proof.
  intros E ip wild h s EO R JN ND RD. pose proof (reachable_wf E h EO R) as WH.
  destruct (set_written h ip s WH) as [[x X] _].
  - intros o I. rewrite Forall_forall in RD. destruct (RD o I) as (p & -> & L & _). eauto.
  - eapply Forall_impl; [|exact RD]. intros o (p & -> & _ & _ & T & _). eauto.
  - exists x. split; [exact X|]. intros h2 WH2. destruct (set_read ip wild h s x WH JN ND RD X h2 WH2) as (h3 & s' & A & B & _ & C & _ & D & F).
    exists h3, s'. auto.
Qed.

(** The same of one table. *)
Theorem C29_round_trip_table : forall E ip wild h (p : ptr), env_ok E -> reachable E h -> json_ready ip h p ->
  exists x, GetTableAsJSON ip h (Some p) = Ok x
    /\ forall h2, wf_heap h2 -> exists h3 p', NewTableFromJSON wild x h2 = (h3, Ok (Some p'))
         /\ NewTableFromJSONByTableName wild x (tname (tab h p)) h2 = (h3, Ok (Some p'))
         /\ deep_copy h h3 p p' /\ wf_heap h3 /\ List.length h2 <= p' < List.length h3
         /\ (forall a, a < List.length h2 -> nth_error h3 a = nth_error h2 a).
Proof.
  intros E ip wild h p EO R RD. set (s := mkTS "" "" [Some p]).
  destruct (C29_round_trip E ip wild h s EO R) as (x & X & RT).
  - exists []. split; [constructor|reflexivity].
  - repeat constructor. intros [].
  - repeat constructor. eauto.
  - exists x. split; [exact X|]. intros h2 WH2. destruct (RT h2 WH2) as (h3 & s' & N & [S1 S2] & WH3 & NEW & OLD).
    unfold s in S2. cbn [ts_tables] in S2. inversion S2 as [|? o' ? l' (a & p' & EA & -> & DC) F2 EQ1 EQ2]; subst. inversion F2; subst.
    injection EA as <-. rewrite <- EQ2 in NEW. inversion NEW as [|? ? (b & EB & LB) _]; subst. injection EB as <-.
    assert (NE : (x =? "")%string = false). { destruct (String.eqb_spec x ""); [subst x|reflexivity]. cbn in N. discriminate. }
    exists h3, p'. split; [|split; [|auto]].
    + unfold NewTableFromJSON. rewrite NE. unfold hbind. rewrite N. unfold TableCount, GetTableByTableIndex, TableCount. rewrite <- EQ2. reflexivity.
    + unfold NewTableFromJSONByTableName, hbind. rewrite N. unfold GetTable. rewrite <- EQ2. cbn [find_table ref_name].
      inversion DC as [? ? _ TN]; subst. rewrite TN, String.eqb_refl. reflexivity.
Qed.

(** ---------- Equals ---------- *)

Lemma deep_copy_same h h' (p p' : ptr) : wf_heap h -> wf_heap h' -> is_nil (tab h p) = false -> no_nested (tab h p) -> no_nan (tab h p) -> deep_copy h h' p p' ->
  same_table (tab h p) (tab h' p') /\ no_nested (tab h' p').
Proof.
  intros WH WH' NN NE NA D. destruct (tab_wf h p WH) as [W _], (tab_wf h' p' WH') as [W' _]. inversion D as [a b D1 D2 D3 D4 D5 D6 D7]; subst.
  assert (CI : forall cn, mget (cmap (tab h' p')) cn = mget (cmap (tab h p)) cn).
  { intros cn. destruct (mget (cmap (tab h p)) cn) as [i|] eqn:G.
    - apply (wf_map _ W) in G. rewrite <- D3 in G. apply (wf_map _ W') in G. now rewrite G.
    - destruct (mget (cmap (tab h' p')) cn) as [i|] eqn:G'; [|reflexivity]. apply (wf_map _ W') in G'. rewrite D3 in G'. apply (wf_map _ W) in G'. congruence. }
  assert (PL : forall i r v w, at_cell (tab h p) i r = Some v -> at_cell (tab h' p') i r = Some w -> w = read_back v /\ forall o, v <> VTable o).
  { intros i r v w A B. unfold at_cell in *. destruct (nth_error (rows (tab h p)) r) as [row|] eqn:R; [|discriminate].
    destruct (Forall2_nth _ _ _ _ _ D7 R) as (row' & R' & F). rewrite R' in B. destruct (Forall2_nth _ _ _ _ _ F A) as (w' & B' & SC).
    assert (w' = w) by congruence. subst w'.
    assert (X : forall q, v <> VTable (Some q)).
    { intros q ->. unfold no_nested in NE. assert (I : In q (nested_in (rows (tab h p)))); [|now rewrite NE in I]. unfold nested_in. apply in_flat_map. exists row.
      split; [eapply nth_error_In; eauto|]. apply in_flat_map. exists (VTable (Some q)). split; [eapply nth_error_In; eauto|now left]. }
    inversion SC; subst; [auto|exfalso; eapply X; reflexivity|exfalso; eapply X; reflexivity]. }
  split.
  - split; [now symmetry|]. split; [unfold RowCount; now rewrite (Forall2_len _ _ _ D7)|]. split.
    + intros cn ct. unfold ColType. rewrite D4, CI. reflexivity.
    + intros cn r v w G1 G2. destruct (GetVal_ok _ _ _ _ W G1) as (c & _ & _ & GV). destruct (NA _ _ _ GV) as [NA1 NA2]. clear GV c.
      unfold GetVal, ColIndex in G1, G2. rewrite NN in G1. rewrite D1, CI in G2. destruct (mget (cmap (tab h p)) cn) as [i|]; cbn [rbind] in G1, G2; [|discriminate].
      rewrite get_at in G1, G2 by assumption. destruct (_ && _)%bool; [|discriminate].
      destruct (at_cell (tab h p) _ _) as [a|] eqn:A; [|discriminate]. destruct (at_cell (tab h' p') _ _) as [b|] eqn:B; [|discriminate].
      injection G1 as ->. injection G2 as ->. destruct (PL _ _ _ _ A B) as [-> _].
      destruct v as [| | | | | |[|]| | |]; try (apply same_value_refl; assumption). reflexivity.
  - unfold no_nested. destruct (nested_in (rows (tab h' p'))) as [|q l] eqn:Q; [reflexivity|]. exfalso.
    assert (I : In q (nested_in (rows (tab h' p')))) by (rewrite Q; now left). unfold nested_in in I. apply in_flat_map in I as (row' & IR & I).
    apply in_flat_map in I as (w & IW & I). destruct w as [| | | | | | |[q'|]| |]; try contradiction. 
    apply In_nth_error in IR as (r & R'). apply In_nth_error in IW as (i & B). destruct (Forall2_nth_r _ _ _ _ _ D7 R') as (row & R & F).
    destruct (Forall2_nth_r _ _ _ _ _ F B) as (v & A & _).
    destruct (PL i r v (VTable (Some q'))) as [E1 E2]; [unfold at_cell; now rewrite R|unfold at_cell; now rewrite R'|].
    destruct v as [| | | | | |[|]| | |]; try discriminate. eapply E2; reflexivity.
Qed.

(** A table without nested tables, read in the same program, is equal to the one it was written
    from. *)
Theorem C29_read_is_equal : forall E ip wild h (p : ptr) x h' p' fuel, env_ok E -> reachable E h -> json_ready ip h p -> no_nested (tab h p) ->
  GetTableAsJSON ip h (Some p) = Ok x -> NewTableFromJSON wild x h = (h', Ok (Some p')) ->
  Equals (S fuel) h' (Some p) (Some p') = Ok tt /\ Equals (S fuel) h' (Some p') (Some p) = Ok tt.
Proof.
  intros E ip wild h p x h' p' fuel EO R RD NE X N. pose proof (reachable_wf E h EO R) as WH.
  destruct (C29_round_trip_table E ip wild h p EO R RD) as (x' & X' & RT). rewrite X in X'. injection X' as <-.
  destruct (RT h WH) as (h3 & p3 & N3 & _ & DC & WH3 & LP & OLD). rewrite N in N3. injection N3 as <- <-.
  destruct RD as (LH & NN & _ & JT & _).
  assert (TP : tab h' p = tab h p). { unfold tab. specialize (OLD p LH). destruct (nth_error h p) eqn:Q; [|apply nth_error_None in Q; unfold ptr in *; lia].
    now rewrite (nth_error_nth _ _ _ Q), (nth_error_nth _ _ _ OLD). }
  assert (NA : no_nan (tab h p)).
  { destruct (JT p (rt_refl _ _ p) NN) as (_ & _ & JV). destruct (tab_wf h p WH) as [W _]. intros c r v G. rewrite get_at in G by exact W. destruct (_ && _)%bool; [|discriminate].
    unfold at_cell in G. destruct (nth_error (rows (tab h p)) (Z.to_nat r)) as [row|] eqn:RO; [|discriminate].
    destruct (nth_error row (Z.to_nat c)) as [w|] eqn:V; [|discriminate]. injection G as ->.
    pose proof (Forall_nth_error _ _ _ _ JV RO) as FR. destruct (Forall2_nth_r _ _ _ _ _ FR V) as (ct & _ & J). split; intros ->; cbn in J; [destruct J as [J _]|]; exact J. }
  destruct (deep_copy_same h h' p p' WH WH3 NN NE NA DC) as [ST NE'].
  assert (LP' : p < List.length h') by (unfold ptr in *; lia).
  destruct (C15_Equals_exactly_the_same_tables fuel h' p p' WH3 LP' (proj2 LP)) as [Q _]; [now rewrite TP|exact NE'|].
  destruct (C15_Equals_exactly_the_same_tables fuel h' p' p WH3 (proj2 LP) LP') as [Q2 _]; [exact NE'|now rewrite TP|].
  rewrite TP in *. split; [apply Q|apply Q2; apply same_table_sym]; exact ST.
Qed.

(** ---------- examples ---------- *)

Definition big : value := VInt KInt64 9007199254740993.
Definition odd_float32 : spec_float := S754_finite false 11420669 (-107).
Definition json_history : list hop :=
  [ HNewTable "A"; HNewTable "B"; HNewTable "C"; HNewTable "D"; HNewTable "F"; HNewTable "G"; HNewTable "H"; HNewTable "I";
    HTab (Some 0) (OAppendCol "s" "string"); HTab (Some 0) (OAppendCol "n" "int64"); HTab (Some 0) (OAppendCol "t" "*Table");
    HTab (Some 0) (OAppendRows 2); HTab (Some 0) (OSetStructShape true);
    HTab (Some 0) (OSet "string" "s" 0 (VString "say ""x""")); HTab (Some 0) (OSet "int64" "n" 1 (VInt KInt64 (-7)));
    HTab (Some 1) (OAppendCol "u" "time.Time"); HTab (Some 1) (OAppendCol "bs" "[]byte"); HTab (Some 1) (OAppendCol "r" "rune"); HTab (Some 1) (OAppendCol "f" "float64");
    HTab (Some 1) OAppendRow; HTab (Some 1) (OSet "rune" "r" 0 (VInt KInt32 233));
    HTab (Some 0) (OSet "*Table" "t" 1 (VTable (Some 1)));
    HTab (Some 2) (OAppendCol "n" "int64"); HTab (Some 2) OAppendRow; HTab (Some 2) (OSet "int64" "n" 0 big);
    HTab (Some 3) (OAppendCol "f" "float64"); HTab (Some 3) OAppendRow; HTab (Some 3) (OSet "float64" "f" 0 (VFloat64 S754_nan));
    HTab (Some 4) (OAppendCol "s" "string"); HTab (Some 4) OAppendRow; HTab (Some 4) (OSet "string" "s" 0 (VString (String "007" "")));
    HTab (Some 5) (OAppendCol "f" "float32"); HTab (Some 5) OAppendRow; HTab (Some 5) (OSet "float32" "f" 0 (VFloat32 odd_float32));
    HTab (Some 6) (OAppendCol "t" "*Table"); HTab (Some 6) (OAppendRows 2);
    HTab (Some 6) (OSet "*Table" "t" 0 (VTable (Some 1))); HTab (Some 6) (OSet "*Table" "t" 1 (VTable (Some 1)));
    HTab (Some 7) (OAppendCol "t" "*Table"); HTab (Some 7) OAppendRow; HTab (Some 7) (OSet "*Table" "t" 0 (VTable (Some 7))) ].
Definition json_heap : heap := Eval vm_compute in
  match play env0 json_history [] with Some h => h | None => [] end.
Lemma json_heap_reachable : reachable env0 json_heap.
Proof. apply (play_reachable env0 json_history [] _ (reach_empty env0)). vm_compute. reflexivity. Qed.
Definition no_ip : Z -> bool := fun _ => false.
Definition wild0 : ikind -> spec_float -> Z := fun _ _ => 0%Z.
Definition one (p : ptr) : tset := mkTS "set" "" [Some p].

Lemma json_heap_nests (q r : ptr) : nests json_heap q r -> q = 0 \/ q = 1 \/ is_nil (tab json_heap q) = true ->
  r = 1 \/ is_nil (tab json_heap r) = true.
Proof.
  intros (t & N & I) [->|[->|Q]].
  - injection N as <-. cbn in I. destruct I as [<-|[<-|[]]]; [right; reflexivity|now left].
  - injection N as <-. cbn in I. contradiction.
  - exfalso. pose proof (reachable_wf env0 json_heap env0_ok json_heap_reachable) as WH. destruct (tab_wf json_heap q WH) as [W _].
    destruct (wf_name _ W) as [[X _]|(_ & _ & _ & X)]; [congruence|]. unfold tab in X. rewrite (nth_error_nth _ _ _ N) in X. rewrite X in I. contradiction.
Qed.
Lemma json_heap_ready : json_ready no_ip json_heap 0 /\ json_ready no_ip json_heap 1.
Proof.
  assert (CL : forall p q : ptr, (p = 0 \/ p = 1 \/ is_nil (tab json_heap p) = true) -> clos_refl_trans _ (nests json_heap) p q -> q = 0 \/ q = 1 \/ is_nil (tab json_heap q) = true).
  { intros p q S C. apply clos_rt_rtn1 in C. induction C as [|y z N C IH]; [exact S|]. right. now apply (json_heap_nests y z). }
  assert (JQ : forall q : ptr, (q = 0 \/ q = 1 \/ is_nil (tab json_heap q) = true) -> is_nil (tab json_heap q) = false ->
    json_text no_ip (tname (tab json_heap q)) /\ Forall (json_text no_ip) (cnames (tab json_heap q)) /\ Forall (Forall2 (json_value_ok no_ip) (ctypes (tab json_heap q))) (rows (tab json_heap q))).
  { intros q [->|[->|X]] NN; [| |congruence].
    - split; [apply ascii_text; reflexivity|]. split; [repeat (constructor; [apply ascii_text; reflexivity|]); constructor|].
      cbn. repeat constructor; cbn; try (apply ascii_text; reflexivity).
      + exists 0%Z, 0%Z. cbn. lia.
      + exists 7%Z, 0%Z. cbn. lia.
    - split; [apply ascii_text; reflexivity|]. split; [repeat (constructor; [apply ascii_text; reflexivity|]); constructor|].
      assert (RU : json_rune no_ip 233). { split; [left; split; vm_compute; congruence|]. right. right. left. split; vm_compute; congruence. }
      repeat first [apply Forall_cons|apply Forall_nil|apply Forall2_cons|apply Forall2_nil]; try exact RU; cbn; repeat split; try (vm_compute; congruence). }
  assert (D1 : depth_at_most 1 json_heap 1). { intros q N NN. destruct N as (t & N & I). injection N as <-. cbn in I. contradiction. }
  split; (split; [cbn; lia|]; split; [reflexivity|]; split; [|split]).
  - exists [0; 1]. split; [|repeat constructor; cbn; intuition discriminate]. apply (an_unfolding json_heap 0 [[1]]). cbn.
    constructor; [|constructor]. apply (an_unfolding json_heap 1 []). cbn. constructor.
  - intros q C NN. apply JQ; [|exact NN]. apply (CL 0); auto.
  - exists 2. split; [lia|]. intros q N NN. destruct (json_heap_nests 0 q N) as [->|X]; auto; congruence.
  - exists [1]. split; [|repeat constructor; cbn; intuition discriminate]. apply (an_unfolding json_heap 1 []). cbn. constructor.
  - intros q C NN. apply JQ; [|exact NN]. apply (CL 1); auto.
  - exists 1. split; [lia|exact D1].
Qed.

(** A set of two tables, one of them in struct shape and nesting the other, meets the hypotheses. *)
Example C29_nonvacuous :
  reachable env0 json_heap
  /\ Forall (fun o => exists p, o = Some p /\ json_ready no_ip json_heap p) (ts_tables (mkTS "set" "" [Some 0; Some 1]))
  /\ set_names json_heap (mkTS "set" "" [Some 0; Some 1]) = ["A"; "B"]
  /\ struct_shape (tab json_heap 0) = true /\ RowCount (tab json_heap 0) = 2%Z /\ nests json_heap 0 1 /\ is_nil (tab json_heap 1) = false
  /\ no_nested (tab json_heap 1)
  /\ ~ is_tree json_heap 6 /\ GetTableAsJSON no_ip json_heap (Some 6) = Err
  /\ ~ is_tree json_heap 7 /\ GetTableAsJSON no_ip json_heap (Some 7) = Err.
Proof.
  pose proof (reachable_wf env0 json_heap env0_ok json_heap_reachable) as WH.
  assert (NT : forall p : ptr, p < List.length json_heap -> GetTableAsJSON no_ip json_heap (Some p) = Err -> ~ is_tree json_heap p).
  { intros p L X T. apply (C29_written_exactly_trees env0 no_ip json_heap p env0_ok json_heap_reachable L) in T as (x & T). congruence. }
  split; [apply json_heap_reachable|]. split. { destruct json_heap_ready. repeat constructor; eauto. }
  repeat split.
  - exists (tab json_heap 0). split; [reflexivity|]. cbn. auto.
  - apply NT; [cbn; lia|vm_compute; reflexivity].
  - apply NT; [cbn; lia|vm_compute; reflexivity].
Qed.

(** ---------- tables that do not come back ---------- *)

(** "Every table set that the encoder supports comes back equal" is false.  These tables are
    written without an error, and what is read is another value or nothing at all: an integer
    that is no float64 is rounded, so is a float32 whose shortest decimal rounds to a neighbour
    by way of float64; NaN and a control character are written in a way that JSON does not know,
    and the NilTable of a set has no name. *)
Theorem C29_large_integer_refuted : exists x h2 t t', GetTableSetAsJSON no_ip json_heap (one 2) = Ok x
  /\ NewTableSetFromJSON wild0 x [] = (h2, Ok (mkTS "set" "" [Some 0])) /\ nth_error json_heap 2 = Some t /\ nth_error h2 0 = Some t'
  /\ GetT "int64" t "n" 0 = Ok (VInt KInt64 9007199254740993) /\ GetT "int64" t' "n" 0 = Ok (VInt KInt64 9007199254740992).
Proof. do 4 eexists. do 5 (split; [vm_compute; reflexivity|]). vm_compute. reflexivity. Qed.
Theorem C29_float32_refuted : exists x h2 t t', GetTableSetAsJSON no_ip json_heap (one 5) = Ok x
  /\ NewTableSetFromJSON wild0 x [] = (h2, Ok (mkTS "set" "" [Some 0])) /\ nth_error json_heap 5 = Some t /\ nth_error h2 0 = Some t'
  /\ GetT "float32" t "f" 0 = Ok (VFloat32 (S754_finite false 11420669 (-107))) /\ GetT "float32" t' "f" 0 = Ok (VFloat32 (S754_finite false 11420670 (-107))).
Proof. do 4 eexists. do 5 (split; [vm_compute; reflexivity|]). vm_compute. reflexivity. Qed.
Theorem C29_unreadable_refuted : forall p : ptr, In p [3; 4; 8] -> exists x h2, GetTableSetAsJSON no_ip json_heap (one p) = Ok x
  /\ NewTableSetFromJSON wild0 x [] = (h2, Err).
Proof. intros p [<-|[<-|[<-|[]]]]; do 2 eexists; (split; [vm_compute; reflexivity|]); vm_compute; reflexivity. Qed.

(** JSON text that is no table set makes the reader panic. *)
Theorem C29_reader_panics_refuted : exists x, forall wild, snd (NewTableSetFromJSON wild x []) = Panic.
Proof. exists "{""tableSetName"":"""",""tables"":[1]}". intros wild. vm_compute. reflexivity. Qed.

(** Axioms used by any theorem of this file. *)
Definition all_Props_Json :=
  (@C29_written_exactly_trees,
   @C29_set_written_exactly_trees,
   @C29_round_trip,
   @C29_round_trip_table,
   @C29_read_is_equal,
   @C29_large_integer_refuted,
   @C29_float32_refuted,
   @C29_unreadable_refuted,
   @C29_reader_panics_refuted).
Print Assumptions all_Props_Json.
