(** Props_Indent.v -- C64: indented JSON; C50: the decoder reads exactly the JSON of RFC 8259. *)
From Coq Require Import ZArith NArith List String Ascii Bool Lia.
From Verif Require Import Base Model_Names Model_Table Model_Sort Model_Ops Model_Heap Model_TableSet Model_Lex Model_Float Model_Time Model_Parser Model_Print Model_Json Spec Spec_Sort Spec_Heap Spec_Walk Spec_Equals Spec_TableSet Spec_Text Spec_Json Proofs_Lib Proofs_Table Proofs_Cells Proofs_Struct Proofs_Api Proofs_Pres Proofs_Api2 Proofs_Copy Proofs_Env Proofs_Heap Proofs_Walk Proofs_Equals Proofs_TableSet Proofs_Lex Proofs_Lines Proofs_JsonText Proofs_JsonWrite Proofs_JsonRead Proofs_JsonTree Props_Heap Props_Equals Model_Indent Spec_Deep Spec_Foreign Spec_Indent Proofs_Says Props_JsonGrammar Props_Json Proofs_Indent Proofs_Indent2.
Import ListNotations.
Local Open Scope list_scope.
Local Open Scope string_scope.

(** ---------- the decoder ---------- *)

(** A JSON string is read as the text that it means, and whatever is read is a JSON string. *)
Theorem C50_JSON_strings_exact : forall s v rest,
  json_string (S (String.length s)) s = Some (v, rest) <-> exists t, s = t ++ rest /\ says t v.
Proof.
  intros s v rest. split.
  - apply json_string_sound.
  - intros (t & -> & S). now apply says_read.
Qed.
(** What is read as a value is a JSON text of that value ... *)
Theorem C50_JSON_documents_sound : forall n s j rest, json_value n s = Some (j, rest) ->
  exists t d, s = t ++ rest /\ spells n t d /\ value_of d = j.
Proof. exact spells_sound. Qed.
(** ... and every JSON text is read as its value, white space anywhere included. *)
Theorem C50_JSON_documents_complete : forall n t d rest, spells n t d -> no_number rest -> json_value n (t ++ rest) = Some (value_of d, rest).
Proof. exact spells_read. Qed.

(** ---------- json.Indent ---------- *)

(** The text of one JSON value, with white space around it *)
Definition one_value (x : string) : Prop := exists a t b d, x = a ++ t ++ b /\ blank a /\ spells max_depth t d /\ blank b.

Lemma blank_no b : blank b -> no_number b.
Proof. intros B. rewrite <- (app_str_nil_r b). apply blank_no_number; [exact B|exact I]. Qed.
Lemma indented a t b d : blank a -> spells max_depth t d -> blank b -> Indent (a ++ t ++ b) = Some (pretty 0 d ++ b).
Proof.
  intros A S B. unfold Indent. rewrite skip_blank, (spells_skip _ _ _ _ S) by auto. rewrite (spells_read _ _ _ _ S).
  2:{ now apply blank_no. }
  rewrite skip_all by auto. change ("" =? "") with true. cbn iota. f_equal.
  assert (G : goes (mkI Outside false 0 false) (a ++ t ++ b) (mkI Outside false 0 true) ("" ++ ("" ++ pretty 0 d) ++ b)).
  { eapply goes_app; [apply blank_goes; auto|]. eapply goes_app; [exact (spells_goes max_depth t d S false 0 false)|]. now apply blank_after. }
  unfold goes in G. rewrite G. reflexivity.
Qed.
Lemma Indent_inv x y : Indent x = Some y -> exists a t b d, x = a ++ t ++ b /\ blank a /\ spells max_depth t d /\ blank b /\ y = pretty 0 d ++ b.
Proof.
  intros H. pose proof H as H'. unfold Indent in H. destruct (json_value max_depth (skip x)) as [[j r]|] eqn:J; [|discriminate]. destruct (skip r =? "") eqn:R; [|discriminate].
  apply String.eqb_eq in R. destruct (spells_sound _ _ _ _ J) as (t & d & E & S & _). destruct (skip_split x) as (a & X & A). destruct (skip_split r) as (b & Rb & B).
  rewrite R, app_str_nil_r in Rb. subst r. exists a, t, b, d. rewrite E in X. split; [exact X|]. split; [exact A|]. split; [exact S|]. split; [exact B|].
  rewrite X, (indented a t b d A S B) in H'. injection H' as <-. reflexivity.
Qed.

(** A text that is one JSON value is indented: the white space goes, every element and every
    member gets its own line, one tab further in for every bracket around it; what is between
    quotes and the numbers stay byte for byte.  The result is the same document. *)
Theorem C64_indented : forall a t b d, blank a -> spells max_depth t d -> blank b ->
  Indent (a ++ t ++ b) = Some (pretty 0 d ++ b) /\ spells max_depth (pretty 0 d) d.
Proof. intros a t b d A S B. split; [now apply indented|]. eapply spells_pretty; eauto. Qed.

(** Any other text is refused. *)
Theorem C64_refused : forall x, ~ one_value x -> Indent x = None.
Proof.
  intros x N. destruct (Indent x) as [y|] eqn:E; [|reflexivity]. exfalso. apply N. destruct (Indent_inv x y E) as (a & t & b & d & X & A & S & B & _). exists a, t, b, d. auto.
Qed.

(** Indenting again changes nothing. *)
Theorem C64_again : forall x y, Indent x = Some y -> Indent y = Some y.
Proof.
  intros x y H. destruct (Indent_inv x y H) as (a & t & b & d & _ & _ & S & B & ->).
  exact (indented "" (pretty 0 d) b d blank_nil (spells_pretty _ 0 _ _ S) B).
Qed.

Lemma same_decoded x y : Indent x = Some y -> json_decode y = json_decode x /\ (x =? "") = false /\ (y =? "") = false.
Proof.
  intros H. destruct (Indent_inv x y H) as (a & t & b & d & -> & A & S & B & ->). pose proof (spells_pretty _ 0 _ _ S) as S'.
  assert (NB : no_number b) by (now apply blank_no).
  split; [|split].
  - unfold json_decode. rewrite (spells_skip _ _ _ _ S'), skip_blank, (spells_skip _ _ _ _ S) by auto. now rewrite (spells_read _ _ _ _ S NB), (spells_read _ _ _ _ S' NB).
  - destruct (spells_head _ _ _ S) as (c & r & -> & _). destruct a; reflexivity.
  - destruct (spells_head _ _ _ S') as (c & r & -> & _). reflexivity.
Qed.
Lemma same_set x y wild : Indent x = Some y -> NewTableSetFromJSON wild y = NewTableSetFromJSON wild x.
Proof. intros H. destruct (same_decoded x y H) as (D & X & Y). unfold NewTableSetFromJSON. now rewrite D, X, Y. Qed.

(** Readers cannot tell the two texts apart: same tables, same errors, in every program state. *)
Theorem C64_read_the_same : forall x y, Indent x = Some y -> forall wild h,
  NewTableSetFromJSON wild y h = NewTableSetFromJSON wild x h
  /\ NewTableFromJSON wild y h = NewTableFromJSON wild x h
  /\ forall n, NewTableFromJSONByTableName wild y n h = NewTableFromJSONByTableName wild x n h.
Proof.
  intros x y H wild h. destruct (same_decoded x y H) as (D & X & Y). pose proof (same_set x y wild H) as S. split; [now rewrite S|]. split.
  - unfold NewTableFromJSON. now rewrite X, Y, S.
  - intros n. unfold NewTableFromJSONByTableName. now rewrite S.
Qed.

(** ---------- tables ---------- *)

(** GetTableAsJSONIndent and GetTableSetAsJSONIndent give the indented text of GetTableAsJSON and
    GetTableSetAsJSON.  They give an error when these do, or when what these write is not JSON. *)
Theorem C64_tables : forall ip h o y, GetTableAsJSONIndent ip h o = Ok y <-> exists x, GetTableAsJSON ip h o = Ok x /\ Indent x = Some y.
Proof.
  intros ip h o y. unfold GetTableAsJSONIndent, indentJSON. destruct (GetTableAsJSON ip h o) as [x| |]; cbn [rbind]; split; try discriminate; try (intros (x' & E & _); discriminate E).
  - destruct (Indent x) as [z|] eqn:I; [|discriminate]. intros [= <-]. eauto.
  - intros (x' & [= <-] & ->). reflexivity.
Qed.
Theorem C64_sets : forall ip h s y, GetTableSetAsJSONIndent ip h s = Ok y <-> exists x, GetTableSetAsJSON ip h s = Ok x /\ Indent x = Some y.
Proof.
  intros ip h s y. unfold GetTableSetAsJSONIndent, indentJSON. destruct (GetTableSetAsJSON ip h s) as [x| |]; cbn [rbind]; split; try discriminate; try (intros (x' & E & _); discriminate E).
  - destruct (Indent x) as [z|] eqn:I; [|discriminate]. intros [= <-]. eauto.
  - intros (x' & [= <-] & ->). reflexivity.
Qed.
Theorem C64_no_panic : forall E ip h (p : ptr), env_ok E -> reachable E h -> p < List.length h ->
  GetTableAsJSONIndent ip h (Some p) <> Panic.
Proof.
  intros E ip h p EO R L. destruct (GetTableAsJSON ip h (Some p)) as [x| |] eqn:G.
  - unfold GetTableAsJSONIndent, indentJSON. rewrite G. cbn [rbind]. destruct (Indent x); discriminate.
  - unfold GetTableAsJSONIndent. rewrite G. discriminate.
  - exfalso. destruct (C29_written_exactly_trees E ip h p EO R L) as [A B]. assert (N : ~ is_tree h p) by (intros T; destruct (A T) as (s & X); rewrite X in G; discriminate G).
    rewrite (B N) in G. discriminate G.
Qed.

(** Tables that JSON can hold (C29) can be written indented, and are read back from it. *)
Theorem C64_round_trip : forall E ip wild h s, env_ok E -> reachable E h -> json_text ip (ts_name s) -> NoDup (set_names h s) ->
  Forall (fun o => exists p, o = Some p /\ json_ready ip h p) (ts_tables s) ->
  exists y, GetTableSetAsJSONIndent ip h s = Ok y
    /\ forall h2, wf_heap h2 -> exists h3 s', NewTableSetFromJSON wild y h2 = (h3, Ok s')
         /\ set_copy h h3 s s' /\ wf_heap h3
         /\ Forall (fun o => exists p : ptr, o = Some p /\ List.length h2 <= p < List.length h3) (ts_tables s')
         /\ (forall a, a < List.length h2 -> nth_error h3 a = nth_error h2 a).
Proof.
  intros E ip wild h s EO R JN ND RD. destruct (C29_round_trip E ip wild h s EO R JN ND RD) as (x & X & RT).
  destruct (set_text ip h s x (reachable_wf E h EO R) JN RD X) as (ps & ms & _ & _ & _ & _ & SK & J).
  assert (exists y, Indent x = Some y) as (y & Y). { unfold Indent. rewrite SK, J. change (skip "" =? "") with true. cbn iota. eauto. }
  exists y. split; [apply C64_sets; eauto|]. intros h2 W. rewrite (same_set x y wild Y). exact (RT h2 W).
Qed.
Theorem C64_round_trip_table : forall E ip wild h (p : ptr), env_ok E -> reachable E h -> json_ready ip h p ->
  exists y, GetTableAsJSONIndent ip h (Some p) = Ok y
    /\ forall h2, wf_heap h2 -> exists h3 p', NewTableFromJSON wild y h2 = (h3, Ok (Some p'))
         /\ NewTableFromJSONByTableName wild y (tname (tab h p)) h2 = (h3, Ok (Some p'))
         /\ deep_copy h h3 p p' /\ wf_heap h3 /\ List.length h2 <= p' < List.length h3
         /\ (forall a, a < List.length h2 -> nth_error h3 a = nth_error h2 a).
Proof.
  intros E ip wild h p EO R RD. destruct (C29_round_trip_table E ip wild h p EO R RD) as (x & X & RT).
  assert (exists y, Indent x = Some y) as (y & Y).
  { destruct (set_text ip h (mkTS "" "" [Some p]) x (reachable_wf E h EO R)) as (ps & ms & _ & _ & _ & _ & SK & J).
    - exists []. split; [constructor|reflexivity].
    - constructor; [eauto|constructor].
    - exact X.
    - unfold Indent. rewrite SK, J. change (skip "" =? "") with true. cbn iota. eauto. }
  exists y. split; [apply C64_tables; eauto|]. intros h2 W. destruct (C64_read_the_same x y Y wild h2) as (_ & T & N). destruct (RT h2 W) as (h3 & p' & A & B & C).
  exists h3, p'. rewrite T, N. auto.
Qed.

(** ---------- examples ---------- *)

Definition sample_text : string := "{ ""a"" : [1 ,-2.5e3 ,[ ]], ""b,{"":""\""xé""}".
Definition sample_doc : doc :=
  Obj [("""a""", "a", Arr [Scalar "1" (JNum "1"); Scalar "-2.5e3" (JNum "-2.5e3"); Arr []]);
       ("""b,{""", "b,{", Scalar """\""xé""" (JStr (String dquote ("x" ++ encode 233))))].
Definition sample_pretty : string :=
  "{" ++ line 1 ++ """a"": [" ++ line 2 ++ "1," ++ line 2 ++ "-2.5e3," ++ line 2 ++ "[]" ++ line 1 ++ "]," ++ line 1 ++ """b,{"": ""\""xé""" ++ line 0 ++ "}".
Example C64_nonvacuous :
  (exists d, spells max_depth sample_text d /\ d = sample_doc)
  /\ Indent (" " ++ sample_text ++ String nl "") = Some (sample_pretty ++ String nl "")
  /\ reachable env0 json_heap /\ json_ready no_ip json_heap 0 /\ json_ready no_ip json_heap 1 /\ nests json_heap 0 1
  /\ (exists x, GetTableAsJSON no_ip json_heap (Some 3) = Ok x /\ Indent x = None /\ GetTableAsJSONIndent no_ip json_heap (Some 3) = Err).
Proof.
  assert (exists n, max_depth = S (S (S n))) as (n & D) by (exists (Z.to_nat 9997); vm_compute; reflexivity).
  assert (N : forall t, json_number t = Some (t, "") -> number_text t) by (intros t H; now apply C50_JSON_numbers_sound in H).
  assert (Q : forall t v, json_string (S (String.length t)) t = Some (v, "") -> string_says (String dquote t) v).
  { intros t v H. apply json_string_sound in H as (u & E & S). rewrite app_str_nil_r in E. subst u. exists t. auto. }
  assert (B1 : blank " ") by (apply blank_cons; [reflexivity|exact blank_nil]). pose proof blank_nil as B0.
  split.
  { exists sample_doc. split; [|reflexivity]. rewrite D. unfold sample_text, sample_doc.
    apply (ly_members (spells (S (S n))) " ""a"" : [1 ,-2.5e3 ,[ ]], ""b,{"":""\""xé""").
    apply (me_more (spells (S (S n))) " " """a""" "a" " " " " "[1 ,-2.5e3 ,[ ]]" "" _ " ""b,{"":""\""xé"""); try exact B1; try exact B0; [now apply Q| |].
    - apply (ly_elements (spells (S n)) "1 ,-2.5e3 ,[ ]"). apply (el_more (spells (S n)) "" "1" " " _ "-2.5e3 ,[ ]"); try exact B1; try exact B0.
      { apply ly_scalar, sc_number, N. reflexivity. }
      apply (el_more (spells (S n)) "" "-2.5e3" " " _ "[ ]"); try exact B1; try exact B0.
      { apply ly_scalar, sc_number, N. reflexivity. }
      apply (el_one (spells (S n)) "" "[ ]" ""); try exact B0. exact (ly_no_elements (spells n) " " B1).
    - apply (me_one (spells (S (S n))) " " """b,{""" "b,{" "" "" """\""xé""" ""); try exact B1; try exact B0; [now apply Q|].
      apply ly_scalar, sc_string. apply Q. reflexivity. }
  split; [vm_compute; reflexivity|]. split; [exact json_heap_reachable|]. split; [exact (proj1 json_heap_ready)|]. split; [exact (proj2 json_heap_ready)|].
  split; [exact (proj1 (proj2 (proj2 (proj2 (proj2 (proj2 C29_nonvacuous))))))|].
  assert (exists x, GetTableAsJSON no_ip json_heap (Some 3) = Ok x) as (x & X) by (vm_compute; eexists; reflexivity).
  exists x. split; [exact X|].
  assert (I : match GetTableAsJSON no_ip json_heap (Some 3) with Ok x => Indent x | _ => None end = None) by (vm_compute; reflexivity).
  rewrite X in I. split; [exact I|]. unfold GetTableAsJSONIndent, indentJSON. rewrite X. cbn [rbind]. now rewrite I.
Qed.

(** Axioms used by any theorem of this file. *)
Definition all_Props_Indent :=
  (@C50_JSON_strings_exact,
   @C50_JSON_documents_sound,
   @C50_JSON_documents_complete,
   @C64_indented,
   @C64_refused,
   @C64_again,
   @C64_read_the_same,
   @C64_tables,
   @C64_sets,
   @C64_no_panic,
   @C64_round_trip,
   @C64_round_trip_table).
Print Assumptions all_Props_Indent.
