(** Props_File.v -- tables and table sets in files, and what a crash leaves of them (C55). *)
From Coq Require Import ZArith NArith List String Ascii Bool SpecFloat Lia.
From Verif Require Import Base Model_Names Model_Table Model_Heap Model_TableSet Spec Spec_Text Model_Lex Model_Float Model_Time Model_Parser Model_Print Model_File Spec_File
  Proofs_Lib Proofs_Table Proofs_Pres Samples Spec_Heap Proofs_Heap Proofs_TableSet Proofs_Parser Proofs_Lex Proofs_Block Proofs_Unpadded Proofs_Padded Proofs_SetText Proofs_Document Proofs_Torn Props_Parser Props_Text.
Import ListNotations.
Local Open Scope string_scope.
Local Open Scope list_scope.

(** ---------- the file system ---------- *)

Lemma substring_all s : forall k, String.length s <= k -> substring 0 k s = s.
Proof. induction s as [|c s IH]; intros [|k] L; cbn in *; try lia; auto. now rewrite IH by lia. Qed.
Lemma substring_len s : forall k, String.length (substring 0 k s) <= k.
Proof. induction s as [|c s IH]; intros [|k]; cbn; try lia. specialize (IH k). lia. Qed.
Lemma set_file_same fs p n : set_file fs p n p = Some n.
Proof. unfold set_file. now rewrite String.eqb_refl. Qed.

Lemma write_file_ok O f name data mode fs fs' : write_file O f name data (file_mode mode) fs = (fs', Ok tt) -> can_read O fs name mode ->
  fs' (place O name) = Some (File true data).
Proof.
  unfold write_file, can_read. destruct f as [|k]; [discriminate|]. destruct (fs (place O name)) as [[|r c]|]; [discriminate| |];
    (destruct (Nat.ltb_spec k (String.length data)) as [L|L]; [discriminate|]); intros E R; injection E as <-; rewrite set_file_same, substring_all by exact L.
  - now subst.
  - unfold file_mode. now rewrite R.
Qed.
(** Whatever happens, the file holds what it held before or a beginning of the data. *)
Lemma write_file_cut O f name data mode fs fs' r : write_file O f name data mode fs = (fs', r) ->
  fs' = fs /\ r = Err \/ exists rd pre post, (pre ++ post)%string = data /\ fs' (place O name) = Some (File rd pre) /\ (r = Ok tt <-> post = "").
Proof.
  unfold write_file. destruct f as [|k]; [intros [= <- <-]; now left|].
  assert (K : forall rd, (set_file fs (place O name) (File rd (substring 0 k data)), if Nat.ltb k (String.length data) then Err else Ok tt) = (fs', r) ->
    exists rd pre post, (pre ++ post)%string = data /\ fs' (place O name) = Some (File rd pre) /\ (r = Ok tt <-> post = "")).
  { intros rd E. injection E as <- <-. exists rd, (substring 0 k data), (drop k data). split; [symmetry; apply take_drop|]. rewrite set_file_same. split; [reflexivity|].
    pose proof (take_drop k data) as TD. destruct (Nat.ltb_spec k (String.length data)) as [L|L]; (split; [discriminate|] || (split; [intros _|auto])).
    - intros Z. exfalso. rewrite Z, app_str_nil_r in TD. apply (f_equal String.length) in TD. pose proof (substring_len data k). lia.
    - rewrite (substring_all _ _ L) in TD. apply (f_equal String.length) in TD. rewrite length_app_str in TD. destruct (drop k data); [reflexivity|cbn in TD; lia]. }
  destruct (fs (place O name)) as [[|rd c]|]; [intros [= <- <-]; now left| |]; intros E; right; eapply K; exact E.
Qed.

(** C55: a write changes no other file, whatever its fate. *)
Theorem C55_WriteFile_frame : forall O ip f h s name mode fs fs' r p, TS_WriteFile O ip f h s name mode fs = (fs', r) -> p <> place O name -> fs' p = fs p.
Proof.
  intros O ip f h s name mode fs fs' r p E N. assert (K : forall n, set_file fs (place O name) n p = fs p).
  { intros n. unfold set_file. destruct (String.eqb_spec p (place O name)); [contradiction|reflexivity]. }
  unfold TS_WriteFile, write_file in E. destruct s as [s|]; [|now injection E as <- <-]. destruct (TS_StringPadded ip h s); try (now injection E as <- <-).
  destruct f; [now injection E as <- <-|]. destruct (fs (place O name)) as [[|]|]; injection E as <- <-; auto.
Qed.
Theorem C55_Table_WriteFile_frame : forall O ip f h o name mode fs fs' r p, Table_WriteFile O ip f h o name mode fs = (fs', r) -> p <> place O name -> fs' p = fs p.
Proof.
  intros O ip f h s name mode fs fs' r p E N. assert (K : forall n, set_file fs (place O name) n p = fs p).
  { intros n. unfold set_file. destruct (String.eqb_spec p (place O name)); [contradiction|reflexivity]. }
  unfold Table_WriteFile, write_file in E. destruct s as [s|]; [|now injection E as <- <-]. destruct (StringPadded ip h (tab h s)); try (now injection E as <- <-).
  destruct f; [now injection E as <- <-|]. destruct (fs (place O name)) as [[|]|]; injection E as <- <-; auto.
Qed.

(** C55: with a nil receiver, a directory or a file that cannot be opened, nothing is written
    and the call does not succeed.  A nil receiver is an error. *)
Theorem C55_WriteFile_refused : forall O ip f h s o name mode fs, f = NotOpened \/ fs (place O name) = Some Dir ->
  fst (TS_WriteFile O ip f h s name mode fs) = fs /\ snd (TS_WriteFile O ip f h s name mode fs) <> Ok tt /\
  fst (Table_WriteFile O ip f h o name mode fs) = fs /\ snd (Table_WriteFile O ip f h o name mode fs) <> Ok tt.
Proof.
  intros O ip f h s o name mode fs C. assert (K : forall data m, write_file O f name data m fs = (fs, Err)) by (intros; unfold write_file; destruct C as [-> | ->]; [|destruct f]; reflexivity).
  unfold TS_WriteFile, Table_WriteFile. split; [|split; [|split]].
  1,2: destruct s as [s|]; [destruct (TS_StringPadded ip h s)|]; rewrite ?K; reflexivity || discriminate.
  1,2: destruct o as [p|]; [destruct (StringPadded ip h (tab h p))|]; rewrite ?K; reflexivity || discriminate.
Qed.
Theorem C55_WriteFile_nil : forall O ip f h name mode fs,
  TS_WriteFile O ip f h None name mode fs = (fs, Err) /\ Table_WriteFile O ip f h None name mode fs = (fs, Err).
Proof. split; reflexivity. Qed.

(** C55: what cannot be read is an error: a name that cannot be made absolute, a missing
    file, a directory and a file without the permission. *)
Theorem C55_read_refused : forall O fs name n h,
  resolve O name = Err \/ (exists n', resolve O name = Ok n' /\ (fs (place O n') = None \/ fs (place O n') = Some Dir \/ exists c, fs (place O n') = Some (File false c))) ->
  NewTableSetFromFile O fs name h = (h, Err) /\ NewTableFromFile O fs name h = (h, Err) /\ NewTableFromFileByTableName O fs name n h = (h, Err).
Proof.
  intros O fs name n h C. assert (E : NewTableSetFromFile O fs name h = (h, Err)).
  { unfold NewTableSetFromFile. destruct C as [-> |(n' & -> & [-> |[-> |(c & ->)]])]; reflexivity. }
  unfold NewTableFromFile, NewTableFromFileByTableName. rewrite E. auto.
Qed.

(** What the readers of files make of a file that can be read: the same as the readers of
    text make of its contents, and the set gets the name of the file. *)
Lemma read_file O fs name n' data h : resolve O name = Ok n' -> fs (place O n') = Some (File true data) ->
  NewTableSetFromFile O fs name h = (fst (NewTableSetFromString data h), rbind (snd (NewTableSetFromString data h)) (fun s => Ok (SetFileName n' s))).
Proof. intros R F. unfold NewTableSetFromFile. rewrite R, F. now destruct (NewTableSetFromString data h). Qed.
Theorem C55_read_text : forall O fs name n' data h, resolve O name = Ok n' -> fs (place O n') = Some (File true data) ->
  NewTableFromFile O fs name h = NewTableFromString data h /\
  (forall n, NewTableFromFileByTableName O fs name n h = NewTableFromStringByTableName data n h) /\
  match NewTableSetFromString data h with
  | (h', Ok s) => NewTableSetFromFile O fs name h = (h', Ok (mkTS (ts_name s) n' (ts_tables s)))
  | (h', Err) => NewTableSetFromFile O fs name h = (h', Err)
  | (h', Panic) => NewTableSetFromFile O fs name h = (h', Panic)
  end.
Proof.
  intros O fs name n' data h R F. pose proof (read_file O fs name n' data h R F) as E. unfold NewTableFromFile, NewTableFromFileByTableName, NewTableFromString, NewTableFromStringByTableName.
  rewrite E. destruct (NewTableSetFromString data h) as [h' [s| |]]; cbn [fst snd rbind]; repeat split; reflexivity.
Qed.

(** ---------- writing and reading ---------- *)

(** C55: a set that was written is what a later read gives: its name, its tables in order and
    their cells.  The file name of the set is the name that was looked up. *)
Theorem C55_TableSet_WriteFile : forall O ip f h s name n' mode fs fs' h1, os_ok O -> resolve O name = Ok n' -> can_read O fs name mode ->
  text_set padded_table h s -> ts_name s = "" \/ (valid_name (ts_name s) /\ all_ascii_chars (ts_name s)) ->
  TS_WriteFile O ip f h (Some s) name mode fs = (fs', Ok tt) ->
  exists h2 s', NewTableSetFromFile O fs' name h1 = (h2, Ok s') /\ ts_name s' = ts_name s /\ ts_file s' = n' /\
    same_tables read_back h s h2 s' /\ (forall q, q < List.length h1 -> nth_error h2 q = nth_error h1 q).
Proof.
  intros O ip f h s name n' mode fs fs' h1 OK R CR TS N E.
  destruct (C24_TableSet_StringPadded ip h s h1 TS N) as (text & h2 & s' & T & P & NM & ST & FR).
  unfold TS_WriteFile in E. rewrite T in E. pose proof (write_file_ok _ _ _ _ _ _ _ E CR) as W. rewrite <- (OK _ _ R) in W.
  exists h2, (SetFileName n' s'). rewrite (read_file _ _ _ _ _ h1 R W), P. split; [reflexivity|]. auto.
Qed.
(** The write succeeds if the file can be opened and the disk has the room. *)
Theorem C55_TableSet_WriteFile_succeeds : forall O ip h s name mode fs, text_set padded_table h s -> fs (place O name) <> Some Dir ->
  exists size, forall k, size <= k -> exists fs', TS_WriteFile O ip (Written k) h (Some s) name mode fs = (fs', Ok tt).
Proof.
  intros O ip h s name mode fs TS ND.
  destruct (set_items padded_table read_back (StringPadded ip h) h (ts_tables s)) as (bs & E & _); [intros t (W & NN & A & _); auto|intros t K; now apply padded_block|apply TS|].
  unfold TS_WriteFile, TS_StringPadded. rewrite E. cbn [rbind]. eexists. intros k L. unfold write_file.
  destruct (fs (place O name)) as [[|rd c]|]; [congruence| |]; (rewrite (proj2 (Nat.ltb_ge _ _) L); eauto).
Qed.

(** C55: the same for one table. *)
Theorem C55_Table_WriteFile : forall O ip f h p t name n' mode fs fs' h1, os_ok O -> resolve O name = Ok n' -> can_read O fs name mode ->
  nth_error h p = Some t -> padded_table t -> Table_WriteFile O ip f h (Some p) name mode fs = (fs', Ok tt) ->
  exists h2 p' t', NewTableFromFile O fs' name h1 = (h2, Ok (Some p')) /\ nth_error h2 p' = Some t' /\ same_content read_back t t' /\
    NewTableFromFileByTableName O fs' name (tname t) h1 = (h2, Ok (Some p')) /\
    (forall q, q < List.length h1 -> nth_error h2 q = nth_error h1 q).
Proof.
  intros O ip f h p t name n' mode fs fs' h1 OK R CR T PT E.
  destruct (padded_roundtrip ip h t h1 PT) as (text & t' & PR & RD & FT).
  assert (TE : tab h p = t) by (unfold tab; now apply nth_error_nth).
  unfold Table_WriteFile in E. rewrite TE, PR in E. pose proof (write_file_ok _ _ _ _ _ _ _ E CR) as W. rewrite <- (OK _ _ R) in W.
  destruct (C55_read_text O fs' name n' text h1 R W) as (RF & RN & _). rewrite RF, RN.
  exists (h1 ++ [t']), (List.length h1), t'. split; [exact RD|]. split; [apply nth_error_last|]. split; [exact (same_content_fresh _ _ _ _ _ t t' eq_refl eq_refl eq_refl eq_refl FT)|].
  split; [|intros q L; now apply nth_error_app1].
  unfold NewTableFromString in RD. unfold NewTableFromStringByTableName. destruct (NewTableSetFromString text h1) as [h2 [ts| |]]; cbn [rbind] in *; try discriminate.
  destruct (TableCount ts =? 1)%Z eqn:TC; cbn [negb] in RD; [|discriminate]. apply Z.eqb_eq in TC. unfold TableCount, GetTableByTableIndex, TableCount in *.
  destruct (ts_tables ts) as [|o [|]] eqn:TT; cbn [List.length] in *; try lia. cbn in RD. injection RD as -> ->.
  unfold GetTable. rewrite TT. cbn [find_table]. unfold ref_name, tab. rewrite (nth_error_nth _ _ _ (nth_error_last h1 t')). rewrite (ft_name _ _ _ _ _ FT), String.eqb_refl. reflexivity.
Qed.

(** C55: reading one table of a file by its name. *)
Theorem C55_ByTableName : forall O ip f h s name n' mode fs fs' h1 p t, os_ok O -> resolve O name = Ok n' -> can_read O fs name mode ->
  text_set padded_table h s -> ts_name s = "" \/ (valid_name (ts_name s) /\ all_ascii_chars (ts_name s)) ->
  TS_WriteFile O ip f h (Some s) name mode fs = (fs', Ok tt) -> In (Some p) (ts_tables s) -> nth_error h p = Some t ->
  exists h2 p' t', NewTableFromFileByTableName O fs' name (tname t) h1 = (h2, Ok (Some p')) /\ nth_error h2 p' = Some t' /\ same_content read_back t t'.
Proof.
  intros O ip f h s name n' mode fs fs' h1 p t OK R CR TS N E I T.
  destruct (C55_TableSet_WriteFile O ip f h s name n' mode fs fs' h1 OK R CR TS N E) as (h2 & s' & RD & _ & _ & ST & _).
  unfold NewTableFromFileByTableName. rewrite RD. cbn [rbind]. unfold GetTable.
  destruct TS as [F D]. destruct s as [sn sf os], s' as [sn' sf' os']. cbn [ts_tables] in *. unfold same_tables in ST. cbn [ts_tables] in ST. clear RD E.
  pose proof (find_table_spec h2 (tname t) os') as FS. destruct (find_table h2 (tname t) os') as [o|].
  - destruct FS as (i & Ni & Rn & _). destruct (Forall2_nth_r _ _ _ _ _ ST Ni) as (o1 & No & q & u & q' & u' & -> & Nu & -> & Nu' & SC).
    assert (Some q = Some p) as X.
    { assert (RU : ref_name h (Some q) = ref_name h (Some p)).
      { unfold ref_name, tab in *. rewrite (nth_error_nth _ _ _ Nu), (nth_error_nth _ _ _ T). rewrite (nth_error_nth _ _ _ Nu') in Rn. destruct SC as (SC & _). congruence. }
      apply nth_error_In in No. clear - D RU No I. induction os as [|o os IH]; [contradiction|]. cbn [map] in D. inversion D as [|? ? ND D']; subst.
      destruct No as [-> |No], I as [I|I]; auto.
      - exfalso. apply ND. rewrite RU. now apply in_map.
      - subst. exfalso. apply ND. rewrite <- RU. now apply in_map. }
    injection X as ->. assert (u = t) by congruence. subst u. exists h2, q', u'. auto.
  - exfalso. apply In_nth_error in I as [i Ni]. destruct (Forall2_nth _ _ _ _ _ ST Ni) as (o' & No & q & u & q' & u' & EQ & Nu & -> & Nu' & SC).
    injection EQ as <-. assert (u = t) by congruence. subst u. apply FS. apply nth_error_In in No. apply in_map_iff. exists (Some q'). split; [|exact No].
    unfold ref_name, tab. rewrite (nth_error_nth _ _ _ Nu'). destruct SC as (SC & _). exact SC.
Qed.

(** C55, histories: after any sequence of successful writes, reading a name gives the set of
    the last write to that file. *)
Theorem C55_last_write : forall O ip h ws1 w ws2 fs fs' n' h1, os_ok O -> resolve O (w_name w) = Ok n' ->
  (forall c, fs (place O (w_name w)) <> Some (File false c)) -> (forall mode, mode <> 0%Z -> perm O mode = true) ->
  text_set padded_table h (w_set w) -> ts_name (w_set w) = "" \/ (valid_name (ts_name (w_set w)) /\ all_ascii_chars (ts_name (w_set w))) ->
  (forall v, In v ws2 -> place O (w_name v) <> place O (w_name w)) ->
  writes O ip h (ws1 ++ w :: ws2) fs = Some fs' ->
  exists h2 s', NewTableSetFromFile O fs' (w_name w) h1 = (h2, Ok s') /\ ts_name s' = ts_name (w_set w) /\ ts_file s' = n' /\
    same_tables read_back h (w_set w) h2 s' /\ (forall q, q < List.length h1 -> nth_error h2 q = nth_error h1 q).
Proof.
  intros O ip h ws1 w ws2 fs fs' n' h1 OK R RD PM TS N LAST E. revert fs RD E.
  induction ws1 as [|v ws1 IH]; intros fs RD E; cbn [app writes] in E.
  - destruct (TS_WriteFile O ip (Written (w_bytes w)) h (Some (w_set w)) (w_name w) (w_mode w) fs) as [fs1 [[]| |]] eqn:W; try discriminate.
    assert (CR : can_read O fs (w_name w) (w_mode w)).
    { unfold can_read. unfold TS_WriteFile, write_file in W. destruct (fs (place O (w_name w))) as [[|[] c]|].
      - destruct (TS_StringPadded ip h (w_set w)); discriminate.
      - reflexivity.
      - now destruct (RD c).
      - apply PM. destruct (Z.eqb_spec (w_mode w) 0); [discriminate|assumption]. }
    destruct (C55_TableSet_WriteFile O ip _ h (w_set w) (w_name w) n' (w_mode w) fs fs1 h1 OK R CR TS N W) as (h2 & s' & RF & NM & FN & ST & FR).
    exists h2, s'. split; [|auto]. rewrite <- RF.
    assert (SAME : fs' (place O (w_name w)) = fs1 (place O (w_name w))).
    { clear - LAST E. revert fs1 E. induction ws2 as [|v ws2 IH]; intros fs1 E; cbn [writes] in E; [now injection E as <-|].
      destruct (TS_WriteFile O ip (Written (w_bytes v)) h (Some (w_set v)) (w_name v) (w_mode v) fs1) as [fs2 [[]| |]] eqn:W; try discriminate.
      rewrite (IH (fun u I => LAST u (or_intror I)) _ E). eapply C55_WriteFile_frame; [exact W|]. intros Q. now apply (LAST v (or_introl eq_refl)). }
    unfold NewTableSetFromFile. rewrite R, (OK _ _ R), SAME. reflexivity.
  - destruct (TS_WriteFile O ip (Written (w_bytes v)) h (Some (w_set v)) (w_name v) (w_mode v) fs) as [fs1 [[]| |]] eqn:W; try discriminate.
    apply (IH fs1); [|exact E]. intros c. destruct (String.eqb_spec (place O (w_name w)) (place O (w_name v))) as [Q|Q].
    + rewrite Q in *. intros X. unfold TS_WriteFile, write_file in W. destruct (TS_StringPadded ip h (w_set v)); try discriminate.
      destruct (fs (place O (w_name v))) as [[|r d]|]; [discriminate| |]; injection W as <- _; rewrite set_file_same in X; injection X as X _; [subst r; now apply (RD d)|].
      unfold file_mode in X. rewrite PM in X; [discriminate|]. destruct (Z.eqb_spec (w_mode v) 0); [discriminate|assumption].
    + intros X. rewrite (C55_WriteFile_frame _ _ _ _ _ _ _ _ _ _ _ W Q) in X. now apply (RD c).
Qed.

(** ---------- crash points ---------- *)

(** The table set of a text *)
Lemma torn_items (ok : table -> Prop) (f : value -> value) (print : table -> res string) h (os : list ref) :
  (forall t, ok t -> wf_table t /\ is_nil t = false /\ all_ascii_chars (tname t)) ->
  (forall t, ok t -> exists ls, print t = Ok (Proofs_Lines.text_of ls) /\ block (tname t) (cnames t) (ctypes t) (map (map f) (rows t)) ls) ->
  Forall (fun o => exists p t, o = Some p /\ nth_error h p = Some t /\ ok t) os ->
  exists bs, rmap (ref_text print h) os = Ok (map (fun b => Proofs_Lines.text_of (it_lines b)) bs) /\ Forall it_ok bs /\ map it_name bs = map (ref_name h) os /\
    Forall2 (fun o b => exists p t, o = Some p /\ nth_error h p = Some t /\ it_name b = tname t /\ it_cns b = cnames t /\ it_cts b = ctypes t /\ it_rows b = map (map f) (rows t)) os bs.
Proof.
  intros A P. induction 1 as [|o os (p & t & -> & T & K) F (bs & E & FI & N & FT)].
  - exists []. split; [reflexivity|]. split; [constructor|]. split; [reflexivity|]. constructor.
  - destruct (A t K) as (W & NN & AN). destruct (wf_name _ W) as [[_ V]|[X _]]; [|congruence].
    destruct (P t K) as (ls & PE & B). assert (TE : tab h p = t) by (unfold tab; now apply nth_error_nth).
    exists (mkIT (tname t) (cnames t) (ctypes t) (map (map f) (rows t)) ls :: bs). split; [|split; [|split]].
    + cbn [rmap ref_text]. rewrite TE, PE. cbn [rbind]. rewrite E. reflexivity.
    + constructor; [|exact FI]. repeat split; [now apply ascii_name_valid|apply V|apply V|exact B].
    + cbn [map it_name]. rewrite N. f_equal. unfold ref_name. now rewrite TE.
    + constructor; [|exact FT]. exists p, t. cbn. repeat split; auto.
Qed.
Lemma torn_item_table f b t t' : it_name b = tname t -> it_cns b = cnames t -> it_cts b = ctypes t -> it_rows b = map (map f) (rows t) -> torn_item b t' -> torn_table f t t'.
Proof.
  intros E1 E2 E3 E4 (T1 & T2 & T3). unfold torn_table. rewrite E1 in T1. rewrite E2, E3, E4, map_length in T3. auto.
Qed.
Lemma nth_seq_some a n i : i < n -> nth_error (map Some (seq a n)) i = Some (Some (a + i)).
Proof. intros L. rewrite nth_error_map, (nth_error_nth' _ 0), seq_nth by (rewrite ?seq_length; lia). reflexivity. Qed.

(** C55: a beginning of the text of a set (a crash can leave any) is refused or is read as a
    torn copy of the set. *)
Theorem C55_torn_text : forall ip h s h1 text pre post h2 s', text_set padded_table h s ->
  ts_name s = "" \/ (valid_name (ts_name s) /\ all_ascii_chars (ts_name s)) ->
  TS_StringPadded ip h s = Ok text -> text = (pre ++ post)%string -> NewTableSetFromString pre h1 = (h2, Ok s') ->
  torn_set read_back h s h2 s' /\ (forall q, q < List.length h1 -> nth_error h2 q = nth_error h1 q).
Proof.
  intros ip h s h1 text pre post h2 s' [F D] N T EQ P.
  destruct (torn_items padded_table read_back (StringPadded ip h) h (ts_tables s)) as (bs & E & FI & NM & FB);
    [intros t (W & NN & A & _); auto|intros t K; now apply padded_block|exact F|].
  unfold TS_StringPadded in T. rewrite E in T. cbn [rbind] in T. apply (f_equal (fun r => match r with Ok x => x | _ => "" end)) in T. cbn beta iota in T. rewrite EQ in T.
  destruct (torn_text bs (ts_name s) h1 pre post h2 s' FI) as (TN & _ & j & ts & JL & FJ & C); try assumption.
  { now rewrite NM. }
  { destruct N as [N|[V A]]; [now left|right; now apply ascii_name_valid]. }
  pose proof (Forall2_len _ _ _ FB) as LB.
  assert (G : exists m l, h2 = h1 ++ ts ++ l /\ ts_tables s' = map Some (seq (List.length h1) m) /\ j <= m /\
    (m = j \/ m = S j /\ exists b t l', nth_error bs j = Some b /\ l = t :: l' /\ torn_item b t)).
  { destruct C as [[-> Q]|(b & t & l & Nb & -> & TI & Q)].
    - exists j, []. rewrite app_nil_r. repeat split; auto.
    - exists (S j), (t :: l). split; [reflexivity|]. split; [exact Q|]. split; [lia|]. right. split; [reflexivity|]. exists b, t, l. auto. }
  destruct G as (m & l & -> & TT & JM & CM). assert (LT : List.length ts = j).
  { apply Forall2_len in FJ. rewrite <- FJ, firstn_length. lia. }
  split; [|intros q L; now apply nth_error_app1].
  split; [exact TN|]. exists j. split; [unfold ref, ptr in *; lia|]. split.
  - intros i L. assert (NI : exists b, nth_error bs i = Some b) by (apply nth_error_lt; lia). destruct NI as [b Nb].
    destruct (Forall2_nth_r _ _ _ _ _ FB Nb) as (o & No & p & t & -> & Nt & E1 & E2 & E3 & E4).
    assert (Nb' : nth_error (firstn j bs) i = Some b).
    { rewrite <- Nb. rewrite <- (firstn_skipn j bs) at 2. rewrite nth_error_app1; [reflexivity|]. rewrite firstn_length. lia. }
    destruct (Forall2_nth _ _ _ _ _ FJ Nb') as (t' & Nt' & FT).
    exists p, t, (List.length h1 + i), t'. split; [exact No|]. split; [exact Nt|]. rewrite TT. split; [apply nth_seq_some; lia|].
    split; [|exact (same_content_fresh _ _ _ _ _ t t' E1 E2 E3 E4 FT)].
    rewrite nth_error_app2 by lia. replace (List.length h1 + i - List.length h1) with i by lia. rewrite nth_error_app1 by lia. exact Nt'.
  - rewrite TT, map_length, seq_length. destruct CM as [CM|(CM & b & t' & l' & Nb & -> & TI)]; [now left|right]. split; [exact CM|].
    destruct (Forall2_nth_r _ _ _ _ _ FB Nb) as (o & No & p & t & -> & Nt & E1 & E2 & E3 & E4).
    exists p, t, (List.length h1 + j), t'. split; [exact No|]. split; [exact Nt|]. split; [apply nth_seq_some; lia|].
    split; [|exact (torn_item_table _ b t t' E1 E2 E3 E4 TI)].
    rewrite app_assoc, nth_error_app2; rewrite app_length, LT; [|lia]. now rewrite Nat.sub_diag.
Qed.
(** It never panics, and the tables of the heap do not change. *)
Theorem C55_torn_no_panic : forall O fs name h, wf_heap h -> resolve O name <> Panic ->
  snd (NewTableSetFromFile O fs name h) <> Panic /\ (forall q, q < List.length h -> nth_error (fst (NewTableSetFromFile O fs name h)) q = nth_error h q).
Proof.
  intros O fs name h W R. unfold NewTableSetFromFile. destruct (resolve O name) as [n'| |]; [|split; [discriminate|auto]|congruence].
  destruct (fs (place O n')) as [[|[] data]|]; try (split; [discriminate|auto]; fail).
  pose proof (parse_ok h data W) as B. destruct (NewTableSetFromString data h) as [h' [s| |]] eqn:P; cbn [fst snd rbind].
  - split; [discriminate|]. apply (C26_NewTableSetFromString data h h' s W P).
  - split; [discriminate|]. unfold NewTableSetFromString in P. destruct (parse_lines _ _); try discriminate. injection P as <-. auto.
  - contradiction.
Qed.

(** C55, crash points: whatever becomes of a write, a later read of that file gives what it
    gave before (the file was not opened), an error, or a torn copy of the set. *)
Theorem C55_crash_TableSet : forall O ip f h s name n' mode fs fs' r h1 h2 s', os_ok O -> resolve O name = Ok n' ->
  text_set padded_table h s -> ts_name s = "" \/ (valid_name (ts_name s) /\ all_ascii_chars (ts_name s)) ->
  TS_WriteFile O ip f h (Some s) name mode fs = (fs', r) -> NewTableSetFromFile O fs' name h1 = (h2, Ok s') ->
  fs' = fs \/ (torn_set read_back h s h2 s' /\ ts_file s' = n' /\ (forall q, q < List.length h1 -> nth_error h2 q = nth_error h1 q)).
Proof.
  intros O ip f h s name n' mode fs fs' r h1 h2 s' OK R TS N W RD. unfold TS_WriteFile in W.
  destruct (TS_StringPadded ip h s) as [text| |] eqn:T; [|injection W as <- _; now left..].
  destruct (write_file_cut _ _ _ _ _ _ _ _ W) as [[-> _]|(rd & pre & post & E & FS & _)]; [now left|right].
  rewrite <- (OK _ _ R) in FS. unfold NewTableSetFromFile in RD. rewrite R, FS in RD. destruct rd; [|discriminate].
  destruct (NewTableSetFromString pre h1) as [h3 [s3| |]] eqn:P; try discriminate. cbn [rbind] in RD. injection RD as <- <-.
  destruct (C55_torn_text ip h s h1 text pre post h3 s3 TS N T (eq_sym E) P) as [TT FR]. split; [exact TT|]. split; [reflexivity|exact FR].
Qed.
(** The same for one table: NewTableFromFile gives a torn copy of the table or an error. *)
Theorem C55_crash_Table : forall O ip f h p t name n' mode fs fs' r h1 h2 o, os_ok O -> resolve O name = Ok n' ->
  nth_error h p = Some t -> padded_table t -> Table_WriteFile O ip f h (Some p) name mode fs = (fs', r) ->
  NewTableFromFile O fs' name h1 = (h2, Ok o) ->
  fs' = fs \/ exists p' t', o = Some p' /\ nth_error h2 p' = Some t' /\ torn_table read_back t t'.
Proof.
  intros O ip f h p t name n' mode fs fs' r h1 h2 o OK R T PT W RD.
  assert (TE : tab h p = t) by (unfold tab; now apply nth_error_nth). unfold Table_WriteFile in W. rewrite TE in W.
  destruct (StringPadded ip h t) as [text| |] eqn:SP; [|injection W as <- _; now left..].
  destruct (write_file_cut _ _ _ _ _ _ _ _ W) as [[-> _]|(rd & pre & post & E & FS & _)]; [now left|right].
  rewrite <- (OK _ _ R) in FS. unfold NewTableFromFile, NewTableSetFromFile in RD. rewrite R, FS in RD. destruct rd; [|discriminate].
  destruct (NewTableSetFromString pre h1) as [h3 [s3| |]] eqn:P; try discriminate. cbn [rbind] in RD.
  set (s := mkTS "" "" [Some p]). assert (TS : text_set padded_table h s).
  { split; [exact (Forall_cons _ (ex_intro _ p (ex_intro _ t (conj eq_refl (conj T PT)))) (Forall_nil _))|]. repeat constructor. intros []. }
  assert (TX : TS_StringPadded ip h s = Ok text).
  { unfold TS_StringPadded. cbn [ts_tables s rmap ref_text]. rewrite TE, SP. reflexivity. }
  destruct (C55_torn_text ip h s h1 text pre post h3 s3 TS (or_introl eq_refl) TX (eq_sym E) P) as [(_ & j & JL & CP & LS) _].
  destruct (TableCount (SetFileName n' s3) =? 1)%Z eqn:TC; cbn [negb] in RD; [|discriminate]. apply Z.eqb_eq in TC.
  unfold GetTableByTableIndex in RD. rewrite TC in RD. unfold TableCount in TC. cbn [SetFileName ts_tables] in TC, RD. cbn in RD.
  destruct (ts_tables s3) as [|o3 [|]] eqn:T3; cbn [List.length] in TC; try lia. injection RD as <- <-. cbn [List.length s ts_tables] in *.
  destruct LS as [LS|(LS & q & u & q' & u' & N1 & N2 & N3 & N4 & TT)].
  - subst j. destruct (CP 0 Nat.lt_0_1) as (q & u & q' & u' & N1 & N2 & N3 & N4 & SC). cbn in N1, N3. injection N1 as <-. injection N3 as ->.
    assert (u = t) by congruence. subst u. exists q', u'. split; [reflexivity|]. split; [exact N4|]. destruct SC as (S1 & S2 & S3 & S4 & S5).
    split; [exact S1|]. split; [exact S5|]. right. split; [exact S2|]. split; [exact S3|]. exists (List.length (rows t)). left.
    rewrite S4. symmetry. apply firstn_all2. now rewrite map_length.
  - assert (j = 0) by lia. subst j. cbn in N1, N3. injection N1 as <-. injection N3 as ->. assert (u = t) by congruence. subst u. exists q', u'. auto.
Qed.

(** ---------- MustMake ---------- *)

(** C55: NewTableFromStringMustMake returns the table that NewTableFromString returns, and
    panics where that is an error. *)
Theorem C55_MustMake : forall s h, wf_heap h ->
  match NewTableFromString s h with
  | (h', Ok o) => NewTableFromStringMustMake s h = (h', Ok o)
  | (h', _) => NewTableFromStringMustMake s h = (h', Panic)
  end.
Proof. intros s h W. unfold NewTableFromStringMustMake. destruct (NewTableFromString s h) as [h' [o| |]]; reflexivity. Qed.

(** ---------- concrete cases ---------- *)

(** A system with slashes: every name denotes itself. *)
Definition unix : os := mkOS (fun n => n) (fun n => match n with String "/" _ => true | _ => false end) (fun n => Ok n) (fun _ => true).
Lemma unix_ok : os_ok unix.
Proof. intros n n'. unfold resolve. destruct (is_abs unix n); cbn; now intros [= ->]. Qed.
Definition empty_disk : files := fun _ => None.

Example C55_nonvacuous : exists fs', TS_WriteFile unix yes (Written 1000) [wide; small] (Some two_set) "/tmp/a.got" 0 empty_disk = (fs', Ok tt) /\
  can_read unix empty_disk "/tmp/a.got" 0 /\ text_set padded_table [wide; small] two_set /\
  match NewTableSetFromFile unix fs' "/tmp/a.got" [] with (h, Ok s) => List.length h = 2 /\ ts_name s = "Both" /\ ts_file s = "/tmp/a.got" | _ => False end.
Proof.
  eexists. split; [vm_compute; reflexivity|]. split; [reflexivity|]. split; [apply C24_set_nonvacuous|]. vm_compute. auto.
Qed.

(** ---------- what a crash can do ---------- *)

Definition one_text : string := text2 "[T]~i s~int string~200 |a|~".
Definition one : table := Eval vm_compute in tab (fst (NewTableFromString one_text [])) 0.
Definition one_disk : files := Eval vm_compute in fst (Table_WriteFile unix yes (Written 100) [one] (Some 0) "a.got" 0 empty_disk).

Lemma one_padded : padded_table one.
Proof.
  split; [apply (wf_read one_text); vm_compute; reflexivity|]. split; [reflexivity|]. split; [each; vm_compute; reflexivity|]. split; [left; reflexivity|].
  split; [discriminate|]. split; [each; discriminate|].
  each; (split; [|split]); try exact I; cbn; intuition (discriminate || lia).
Qed.

(** A write is not atomic: a crash right after the file was opened leaves an empty file, and
    that is read without error as a set without tables.  The old tables are lost. *)
Theorem C55_atomic_refuted : exists fs fs' h s, text_set padded_table h s /\ ts_tables s <> [] /\
  match NewTableSetFromFile unix fs "a.got" [] with (_, Ok s0) => ts_tables s0 <> [] | _ => False end /\
  TS_WriteFile unix yes (Written 0) h (Some s) "a.got" 0 fs = (fs', Err) /\
  NewTableSetFromFile unix fs' "a.got" [] = ([], Ok (mkTS "" "a.got" [])).
Proof.
  exists one_disk. eexists _, [wide; small], two_set. split; [apply C24_set_nonvacuous|]. split; [discriminate|]. split; [vm_compute; discriminate|].
  split; [vm_compute; reflexivity|]. vm_compute. reflexivity.
Qed.
(** A torn file can be accepted with a value that was never written: 200 is read as 20. *)
Definition number_text : string := text2 "[T]~i~int~200~".
Definition number : table := Eval vm_compute in tab (fst (NewTableFromString number_text [])) 0.
Lemma number_padded : padded_table number.
Proof.
  split; [apply (wf_read number_text); vm_compute; reflexivity|]. split; [reflexivity|]. split; [each; vm_compute; reflexivity|]. split; [left; reflexivity|].
  split; [discriminate|]. split; [each; discriminate|].
  each; (split; [|split]); try exact I; cbn; intuition (discriminate || lia).
Qed.
Theorem C55_torn_value_refuted : exists t k fs' t', padded_table t /\ rows t = [[VInt KInt 200]] /\
  Table_WriteFile unix yes (Written k) [t] (Some 0) "a.got" 0 empty_disk = (fs', Err) /\
  NewTableFromFile unix fs' "a.got" [] = ([t'], Ok (Some 0)) /\ rows t' = [[VInt KInt 20]].
Proof.
  exists number, 14. eexists _, _. split; [apply number_padded|]. split; [reflexivity|]. split; [vm_compute; reflexivity|]. split; vm_compute; reflexivity.
Qed.
(** A torn file can be accepted with a type that was never written: int64 is read as int. *)
Definition wide_int_text : string := text2 "[T]~i~int64~7~".
Definition wide_int : table := Eval vm_compute in tab (fst (NewTableFromString wide_int_text [])) 0.
Theorem C55_torn_type_refuted : exists t k fs' t', padded_table t /\ ctypes t = ["int64"] /\
  Table_WriteFile unix yes (Written k) [t] (Some 0) "a.got" 0 empty_disk = (fs', Err) /\
  NewTableFromFile unix fs' "a.got" [] = ([t'], Ok (Some 0)) /\ ctypes t' = ["int"] /\ rows t' = [].
Proof.
  exists wide_int, 13. eexists _, _. split; [|split; [reflexivity|]; split; [vm_compute; reflexivity|]; split; [vm_compute; reflexivity|]; split; vm_compute; reflexivity].
  split; [apply (wf_read wide_int_text); vm_compute; reflexivity|]. split; [reflexivity|]. split; [each; vm_compute; reflexivity|]. split; [left; reflexivity|].
  split; [discriminate|]. split; [each; discriminate|].
  each; (split; [|split]); try exact I; cbn; intuition (discriminate || lia).
Qed.
(** One crash point of each kind in a file of two tables: refused, torn, and complete. *)
Example C55_crash_nonvacuous : exists k1 k2 fs1 fs2 r,
  TS_WriteFile unix yes (Written k1) [wide; small] (Some two_set) "a.got" 0 empty_disk = (fs1, Err) /\
  snd (NewTableSetFromFile unix fs1 "a.got" []) = Err /\
  TS_WriteFile unix yes (Written k2) [wide; small] (Some two_set) "a.got" 0 empty_disk = (fs2, r) /\
  match NewTableSetFromFile unix fs2 "a.got" [] with (h, Ok s) => map (fun t => List.length (rows t)) h = [1; 1] /\ ts_name s = "Both" | _ => False end.
Proof.
  exists 3, 323. eexists _, _, _. split; [vm_compute; reflexivity|]. split; [vm_compute; reflexivity|]. split; [vm_compute; reflexivity|]. vm_compute. auto.
Qed.

(** Axioms used by any theorem of this file. *)
Definition all_Props_File :=
  (@C55_WriteFile_frame,
   @C55_Table_WriteFile_frame,
   @C55_WriteFile_refused,
   @C55_WriteFile_nil,
   @C55_read_refused,
   @C55_read_text,
   @C55_TableSet_WriteFile,
   @C55_TableSet_WriteFile_succeeds,
   @C55_Table_WriteFile,
   @C55_ByTableName,
   @C55_last_write,
   @C55_torn_text,
   @C55_torn_no_panic,
   @C55_crash_TableSet,
   @C55_crash_Table,
   @C55_MustMake,
   @C55_atomic_refuted,
   @C55_torn_value_refuted,
   @C55_torn_type_refuted).
Print Assumptions all_Props_File.
