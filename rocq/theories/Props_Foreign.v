(** Props_Foreign.v -- C50: reading JSON and YAML documents of unknown origin. *)
From Coq Require Import ZArith NArith List String Ascii Bool SpecFloat Lia Relations.
From Verif Require Import Base Model_Names Model_Table Model_Sort Model_Heap Model_TableSet Model_Lex Model_Float Model_Time
  Model_Parser Model_Print Model_Json Model_Yaml Spec Spec_Sort Spec_Heap Spec_Walk Spec_TableSet Spec_Text Spec_Foreign.
From Verif Require Import Proofs_Lib Proofs_Pres Samples Proofs_Heap Proofs_Walk Proofs_TableSet Proofs_Foreign Props_Json Props_Yaml.
Import ListNotations.
Local Open Scope string_scope.
Local Open Scope list_scope.

Lemma grown_nests h h' (p q : ptr) : grown h h' -> List.length h <= p -> nests h' p q -> p < q < List.length h'.
Proof.
  intros G L (t & N & I). split.
  - apply (proj1 (ptrs_gt_nested p t)); [exact (gr_up _ _ G p t L N)|exact I].
  - exact (wh_nested _ (gr_wf _ _ G) p t q N I).
Qed.
Lemma grown_below h h' (p q : ptr) : grown h h' -> List.length h <= p -> clos_trans _ (nests h') p q -> p < q < List.length h'.
Proof.
  intros G L C. apply clos_trans_t1n in C. induction C as [p q S|p r q S C IH].
  - now apply (grown_nests h).
  - apply (grown_nests h) in S; auto. destruct IH; lia.
Qed.
Lemma grown_all_new h h' p : grown h h' -> List.length h <= p < List.length h' -> all_new h h' p.
Proof.
  intros G P.
  assert (A : forall q, clos_refl_trans _ (nests h') p q -> List.length h <= q < List.length h').
  { intros q C. apply clos_rt_rt1n in C. destruct C as [|r q S C]; [exact P|].
    assert (T : clos_trans _ (nests h') p q).
    { apply clos_t1n_trans. clear -S C. revert p S. induction C as [|r' q' z S' C IH]; intros p S; [now constructor|].
      eapply Relation_Operators.t1n_trans; [exact S|]. now apply IH. }
    apply (grown_below h) in T; auto; lia. }
  split; [exact A|]. intros (q & C & T). apply A in C. apply (grown_below h) in T; auto; lia.
Qed.
Lemma grown_set h h' s : grown h h' -> new_set_in h h' s -> set_all_new h h' s.
Proof.
  intros G [[ND R] N]. split; [exact ND|]. rewrite Forall_forall in *. intros o I. destruct (N o I) as (p & -> & L).
  exists p. split; [reflexivity|]. apply grown_all_new; [exact G|]. split; [exact L|]. apply ref_in_lt. now apply R.
Qed.

(** Whatever the text, reading it as JSON leaves all tables well formed and the existing ones as
    they are.  If a table set is read, all its tables are new, well formed, not circular, and
    named differently. *)
Theorem C50_JSON : forall wild x h h' r, wf_heap h -> NewTableSetFromJSON wild x h = (h', r) ->
  wf_heap h' /\ untouched h h' /\ forall s, r = Ok s -> set_all_new h h' s.
Proof.
  intros wild x h h' r W E. destruct (json_set_new wild x h W) as [G N]. rewrite E in G, N. cbn [fst snd] in G, N.
  split; [apply (gr_wf _ _ G)|]. split; [exact (gr_old _ _ G)|]. intros s ->. apply grown_set; auto.
Qed.

(** The same for the functions that return one table. *)
Theorem C50_JSON_table : forall wild x n h, wf_heap h ->
  let '(h1, r1) := NewTableFromJSON wild x h in let '(h2, r2) := NewTableFromJSONByTableName wild x n h in
  wf_heap h1 /\ untouched h h1 /\ (forall o, r1 = Ok o -> exists p : ptr, o = Some p /\ all_new h h1 p)
  /\ wf_heap h2 /\ untouched h h2 /\ (forall o, r2 = Ok o -> exists p : ptr, o = Some p /\ all_new h h2 p /\ tname (tab h2 p) = n).
Proof.
  intros wild x n h W.
  assert (A : let '(h1, r1) := NewTableFromJSON wild x h in
      wf_heap h1 /\ untouched h h1 /\ (forall o, r1 = Ok o -> exists p : ptr, o = Some p /\ all_new h h1 p)).
  { unfold NewTableFromJSON. destruct (x =? ""); [cbn; split; [exact W|]; split; [intros p _; reflexivity|discriminate]|].
    unfold hbind. destruct (NewTableSetFromJSON wild x h) as [h1 r1] eqn:E.
    destruct (C50_JSON wild x h h1 r1 W E) as (W1 & U & N). destruct r1 as [s| |];
      [|split; [exact W1|]; split; [exact U|discriminate]..].
    destruct (N s eq_refl) as [_ F]. destruct (negb (TableCount s =? 1)%Z); cbn [hlift]; split; auto; split; auto; [discriminate|].
    intros o G. unfold GetTableByTableIndex in G. destruct (_ || _)%bool in G; [discriminate|].
    destruct (znth (ts_tables s) 0) as [o'|] eqn:Z; [|discriminate]. injection G as ->.
    apply znth_some in Z. exact (Forall_nth_error _ _ _ _ F (proj2 Z)). }
  assert (B : let '(h2, r2) := NewTableFromJSONByTableName wild x n h in
      wf_heap h2 /\ untouched h h2 /\ (forall o, r2 = Ok o -> exists p : ptr, o = Some p /\ all_new h h2 p /\ tname (tab h2 p) = n)).
  { unfold NewTableFromJSONByTableName, hbind. destruct (NewTableSetFromJSON wild x h) as [h1 r1] eqn:E.
    destruct (C50_JSON wild x h h1 r1 W E) as (W1 & U & N). destruct r1 as [s| |];
      [|split; [exact W1|]; split; [exact U|discriminate]..].
    destruct (N s eq_refl) as [_ F]. split; [exact W1|]. split; [exact U|]. intros o G.
    unfold GetTable in G. destruct (find_table h1 n (ts_tables s)) as [o'|] eqn:FT; [|discriminate]. injection G as ->.
    assert (H : In o (ts_tables s) /\ ref_name h1 o = n).
    { clear -FT. revert FT. induction (ts_tables s) as [|a l IH]; [discriminate|]. simpl. destruct (String.eqb_spec (ref_name h1 a) n); [intros [= ->]; auto|].
      intros H. destruct (IH H). auto. }
    destruct H as [I R]. rewrite Forall_forall in F. destruct (F o I) as (p & -> & AN). exists p. auto. }
  destruct (NewTableFromJSON wild x h) as [h1 r1]. destruct (NewTableFromJSONByTableName wild x n h) as [h2 r2]. tauto.
Qed.

(** The same for YAML, for every library whose unmarshal returns Go values. *)
Theorem C50_YAML : forall Y (x : text_t Y) h h' r, wf_heap h -> (forall m, unmarshal Y x = Ok m -> go_doc (YMap m)) ->
  NewTableSetFromYAML Y x h = (h', r) ->
  wf_heap h' /\ untouched h h' /\ forall s, r = Ok s -> set_all_new h h' s.
Proof.
  intros Y x h h' r W GY E. destruct (yaml_set_new Y x h W GY) as [G N]. rewrite E in G, N. cbn [fst snd] in G, N.
  split; [apply (gr_wf _ _ G)|]. split; [exact (gr_old _ _ G)|]. intros s ->. apply grown_set; auto.
Qed.

(** Nothing of the document is dropped silently: the table set has the name that the document gives
    it and one table for each element of its list of tables; each table has the name, the
    columns and the number of rows that its element tells. *)
Theorem C50_JSON_document : forall wild x h h' s, wf_heap h -> NewTableSetFromJSON wild x h = (h', Ok s) ->
  exists m l ps, json_decode x = Some m /\ jget m "tableSetName" = Some (JStr (ts_name s)) /\ jget m "tables" = Some (JArr l)
    /\ ts_tables s = map Some ps /\ Forall2 (fun j (p : ptr) => exists tm, j = JObj tm /\ p < List.length h' /\ json_table h' tm p) l ps.
Proof.
  intros wild x h h' s W E. unfold NewTableSetFromJSON in E. destruct (x =? ""); [discriminate|].
  generalize dependent (json_decode x). intros [m|] E; [|discriminate]. exists m. unfold hbind, hlift in E. cbn [of_opt] in E.
  destruct (jget m "tableSetName") as [[|y|y|n|l|m']|]; try discriminate.
  unfold jget_arr in E. destruct (jget m "tables") as [[|y|y|y|l|m']|]; try discriminate.
  destruct (tables_from_json_docs wild l (NewTableSet n) h h' s W E) as (_ & N & ps & T & F). exists l, ps. rewrite N. auto.
Qed.
Theorem C50_YAML_document : forall Y (x : text_t Y) h h' s, wf_heap h -> (forall m, unmarshal Y x = Ok m -> go_doc (YMap m)) ->
  NewTableSetFromYAML Y x h = (h', Ok s) ->
  exists m l ps, unmarshal Y x = Ok m /\ yget m "tableSetName" = Some (YStr (ts_name s)) /\ yget m "tables" = Some (YList l)
    /\ ts_tables s = map Some ps /\ Forall2 (fun y (p : ptr) => exists tm, y = YMap tm /\ p < List.length h' /\ yaml_table h' tm p) l ps.
Proof.
  intros Y x h h' s W GY E. unfold NewTableSetFromYAML in E. destruct (is_no_text Y x); [discriminate|].
  unfold hbind, hlift in E. destruct (unmarshal Y x) as [m| |]; try discriminate. specialize (GY m eq_refl). exists m.
  destruct (yget m "tableSetName") as [[|y|z|z|f|n|t|l|m'|]|]; try discriminate.
  destruct (yget m "tables") as [[|y|z|z|f|y|t|l|m'|]|] eqn:ET; try discriminate.
  destruct (tables_from_yaml_docs l (NewTableSet n) h h' s W (go_get _ _ _ GY ET) E) as (_ & N & ps & T & F). exists l, ps. rewrite N. auto.
Qed.

(** NewTableFromJSON returns the table of a table set with exactly one table, and an error for
    every other table set; NewTableFromJSONByTableName returns the table of the set that has the
    name. *)
Theorem C50_JSON_single : forall wild x h h' s, NewTableSetFromJSON wild x h = (h', Ok s) ->
  NewTableFromJSON wild x h = (h', match ts_tables s with [o] => Ok o | _ => Err end)
  /\ forall n, NewTableFromJSONByTableName wild x n h = (h', GetTable h' s n).
Proof.
  intros wild x h h' s E. split; [|intros n; unfold NewTableFromJSONByTableName, hbind; now rewrite E].
  unfold NewTableFromJSON.
  destruct (x =? "") eqn:X; [unfold NewTableSetFromJSON in E; rewrite X in E; discriminate|]. unfold hbind. rewrite E.
  unfold TableCount. destruct (ts_tables s) as [|o [|o' l]] eqn:T; cbn [List.length]; [reflexivity| |].
  - unfold GetTableByTableIndex, TableCount, hlift. rewrite T. reflexivity.
  - rewrite (proj2 (Z.eqb_neq _ _)) by lia. reflexivity.
Qed.

(** The readers do not answer every document with a table set or an error: a member of tables or
    metadata that is no object, a row or a cell that is not what it should be, and an empty
    string for a rune make the JSON reader panic, a list without tables the YAML reader. *)
Definition in_set (tables : string) : string := ("{""tableSetName"":""s"",""tables"":[" ++ tables ++ "]}")%string.
Definition in_table (meta rows : string) : string :=
  in_set ("{""tableName"":""T"",""metadata"":[" ++ meta ++ "],""data"":[" ++ rows ++ "]}")%string.
Theorem C50_never_panics_refuted :
  (forall wild x, In x [in_set "5"; in_table "5" ""; in_table "{""a"":""int""}" "5"; in_table "{""a"":""int""}" "[5]";
                        in_table "{""a"":""rune""}" "[{""a"":""""}]"; in_table "{""a"":""int""}" "[{""a"":1},{""b"":2}]"] ->
     snd (NewTableSetFromJSON wild x []) = Panic)
  /\ snd (NewTableSetFromYAML yaml0 (Some [("tableSetName", YStr "s")]) []) = Panic.
Proof.
  split; [|reflexivity]. intros wild x I.
  repeat (destruct I as [<-|I]; [vm_compute; reflexivity|]). destruct I.
Qed.

(** The documents above with the defects repaired are read; so are nested tables. *)
Definition read_sizes (r : heap * res tset) : option (nat * nat) :=
  match r with (h', Ok s) => Some (List.length (ts_tables s), List.length h') | _ => None end.
Example C50_nonvacuous :
  read_sizes (NewTableSetFromJSON wild0 (in_table "{""a"":""int""},{""t"":""*Table""}"
       "[{""a"":1},{""t"":{""tableName"":""U"",""metadata"":[{""b"":""rune""}],""data"":[[{""b"":""x""}]]}}]") json_heap)
    = Some (1, List.length json_heap + 3)
  /\ read_sizes (NewTableSetFromYAML yaml0 (Some [("tableSetName", YStr "s"); ("tables", YList [
        YMap [("tableName", YStr "T"); ("metadata", YList [YMap [("a", YStr "float64")]]); ("data", YList [YList [YFloat (S754_infinity true)]])]])]) json_heap)
    = Some (1, List.length json_heap + 1)
  /\ wf_heap json_heap.
Proof.
  split; [vm_compute; reflexivity|]. split; [vm_compute; reflexivity|].
  apply (reachable_wf Proofs_Env.env0); [apply Proofs_Env.env0_ok|apply json_heap_reachable].
Qed.

(** Axioms used by any theorem of this file. *)
Definition all_Props_Foreign :=
  (@C50_JSON,
   @C50_JSON_table,
   @C50_YAML,
   @C50_JSON_document,
   @C50_YAML_document,
   @C50_JSON_single,
   @C50_never_panics_refuted).
Print Assumptions all_Props_Foreign.
