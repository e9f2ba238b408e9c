(** Props_YamlCells.v -- the cells of the tables of a YAML document of unknown origin (C50). *)
From Coq Require Import ZArith NArith List String Ascii Bool SpecFloat Lia.
From Verif Require Import Base Model_Names Model_Table Model_Heap Model_TableSet Model_Lex Model_Float Model_Time Model_Parser Model_Print Model_Json Model_Yaml
  Spec Spec_Heap Spec_TableSet Spec_Round Spec_Decimal Spec_Foreign Spec_JsonCells Spec_YamlCells.
From Verif Require Import Proofs_Lib Samples Proofs_Heap Proofs_Foreign Proofs_YamlCells Props_Json Props_Yaml Props_Foreign Props_JsonCells.
Import ListNotations.
Local Open Scope string_scope.
Local Open Scope list_scope.

(** Every table of the set is described by its element of the document, down to the last cell of
    the last nested table. *)
Theorem C50_YAML_cells : forall Y (x : text_t Y) h h' s, wf_heap h -> (forall m, unmarshal Y x = Ok m -> go_doc (YMap m)) ->
  NewTableSetFromYAML Y x h = (h', Ok s) ->
  exists m l ps, unmarshal Y x = Ok m /\ yget m "tables" = Some (YList l) /\ ts_tables s = map Some ps
    /\ Forall2 (fun y (p : ptr) => exists tm, y = YMap tm /\ p < List.length h' /\ doc_says h' tm p) l ps.
Proof.
  intros Y x h h' s W GY E. unfold NewTableSetFromYAML in E. destruct (is_no_text Y x); [discriminate|].
  unfold hbind, hlift in E. destruct (unmarshal Y x) as [m| |]; try discriminate. specialize (GY m eq_refl). exists m.
  destruct (yget m "tableSetName") as [[|y|z|z|f|n|t|l|m'|]|]; try discriminate.
  destruct (yget m "tables") as [[|y|z|z|f|y|t|l|m'|]|] eqn:ET; try discriminate.
  destruct (tables_from_yaml_says l (NewTableSet n) h h' s W (go_get _ _ _ GY ET) E) as (_ & ps & T & F). exists l, ps. auto.
Qed.

(** One integer of a type is what an integer of the document says, and it is that integer if the
    type has it. *)
Theorem C50_wraps_one : forall k z w w', wraps k z w -> wraps k z w' -> w = w'.
Proof.
  intros k z w w' [R [n N]] [R' [n' N']]. unfold in_range in *. subst. enough (n = n') by congruence.
  apply andb_true_iff in R, R'. rewrite !Z.leb_le in R, R'. destruct k; cbn in *; lia.
Qed.
Theorem C50_wraps_same : forall k z, in_range k z = true -> wraps k z z.
Proof. intros k z R. split; [exact R|]. exists 0%Z. ring. Qed.

(** An integer that the column cannot hold is not refused: its low bits are kept. *)
Definition yaml_doc (meta rows : list ydoc) : option (list (string * ydoc)) :=
  Some [("tableSetName", YStr "s"); ("tables", YList [YMap [("tableName", YStr "T"); ("metadata", YList meta); ("data", YList rows)]])].
Theorem C50_YAML_exact_refuted :
  read_cells (NewTableSetFromYAML yaml0 (yaml_doc [YMap [("a", YStr "int8")]; YMap [("b", YStr "uint")]; YMap [("c", YStr "string")]] [YList [YInt 300; YInt (-1)]]) [])
  = Some [[VInt KInt8 44; VInt KUint (2 ^ 64 - 1); VString ""]].
Proof. vm_compute. reflexivity. Qed.

(** A document with every kind of value; a nested table, one without a name and a missing cell *)
Definition every_type : list ydoc :=
  map (fun ct => YMap [(fst ct, YStr (snd ct))]) [("s", "string"); ("b", "bool"); ("t", "time.Time"); ("r", "rune"); ("u", "uint64"); ("f", "float64"); ("g", "float32");
    ("h", "float32"); ("y", "[]byte"); ("n", "*Table"); ("m", "*Table"); ("z", "*Table")].
Definition every_value : list ydoc :=
  [YStr "x"; YBool true; YTime (mkTime 0 0 0); YInt 65; YUint (2 ^ 64 - 1); YFloat (S754_zero true); YFloat S754_nan; YInt 3; YList [YInt 1; YInt 256];
   YMap [("tableName", YStr "U"); ("metadata", YList [YMap [("i", YStr "int")]]); ("data", YList [YList [YInt 5]; YList []])]; YMap [("tableName", YStr "")]].
Example C50_YAML_cells_nonvacuous : exists h' s, NewTableSetFromYAML yaml0 (yaml_doc every_type [YList every_value]) json_heap = (h', Ok s)
  /\ wf_heap json_heap /\ (forall m, unmarshal yaml0 (yaml_doc every_type [YList every_value]) = Ok m -> go_doc (YMap m))
  /\ exists row, read_cells (h', Ok s) = Some [row] /\ List.length row = 12
  /\ nth_error row 3 = Some (VInt KInt32 65) /\ nth_error row 8 = Some (VBytes (Some [Ascii.ascii_of_nat 1; Ascii.ascii_of_nat 0]))
  /\ exists q, nth_error row 9 = Some (VTable (Some q)) /\ tname (tab h' q) = "U" /\ rows (tab h' q) = [[VInt KInt 5]; [VInt KInt 0]].
Proof.
  destruct (NewTableSetFromYAML yaml0 (yaml_doc every_type [YList every_value]) json_heap) as [h' r] eqn:E.
  assert (K : (let (a, b) := NewTableSetFromYAML yaml0 (yaml_doc every_type [YList every_value]) json_heap in
     match b, read_cells (a, b) with
     | Ok _, Some [row] => match nth_error row 9 with Some (VTable (Some q)) =>
           Some (List.length row, nth_error row 3, nth_error row 8, tname (tab a q), rows (tab a q)) | _ => None end
     | _, _ => None end) = Some (12, Some (VInt KInt32 65), Some (VBytes (Some [Ascii.ascii_of_nat 1; Ascii.ascii_of_nat 0])), "U", [[VInt KInt 5]; [VInt KInt 0]])) by (vm_compute; reflexivity).
  rewrite E in K. destruct r as [s| |]; try discriminate K. exists h', s. split; [reflexivity|].
  split; [apply (reachable_wf Proofs_Env.env0); [apply Proofs_Env.env0_ok|apply json_heap_reachable]|].
  split; [intros m [= <-]; vm_compute; tauto|].
  destruct (read_cells (h', Ok s)) as [[|row [|? ?]]|]; try discriminate K. exists row. split; [reflexivity|].
  destruct (nth_error row 9) as [[| | | | | | |[q|]| |]|]; try discriminate K. injection K as K1 K2 K3 K4 K5. repeat (split; [assumption|]). exists q. auto.
Qed.

(** Axioms used by any theorem of this file. *)
Definition all_Props_YamlCells :=
  (@C50_YAML_cells,
   @C50_wraps_one,
   @C50_wraps_same,
   @C50_YAML_exact_refuted).
Print Assumptions all_Props_YamlCells.
