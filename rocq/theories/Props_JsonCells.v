(** Props_JsonCells.v -- the cells of the tables of a JSON document of unknown origin (C50). *)
From Coq Require Import ZArith NArith List String Ascii Bool SpecFloat Lia.
From Verif Require Import Base Model_Names Model_Table Model_Heap Model_TableSet Model_Lex Model_Float Model_Time Model_Parser Model_Print Model_Json
  Spec Spec_Heap Spec_TableSet Spec_Round Spec_Decimal Spec_Foreign Spec_JsonCells.
From Verif Require Import Proofs_Lib Samples Proofs_Heap Proofs_Foreign Proofs_JsonCells Props_Json Props_Foreign.
Import ListNotations.
Local Open Scope string_scope.
Local Open Scope list_scope.

(** Every table of the set is described by its element of the document, down to the last cell of
    the last nested table: each cell holds the value that the document has at its place, and
    the zero value if there is none; no value of the document is dropped. *)
Theorem C50_JSON_cells : forall wild x h h' s, wf_heap h -> NewTableSetFromJSON wild x h = (h', Ok s) ->
  exists m l ps, json_decode x = Some m /\ jget m "tables" = Some (JArr l) /\ ts_tables s = map Some ps
    /\ Forall2 (fun j (p : ptr) => exists tm, j = JObj tm /\ p < List.length h' /\ table_says h' tm p) l ps.
Proof.
  intros wild x h h' s W E. unfold NewTableSetFromJSON in E. destruct (x =? ""); [discriminate|].
  generalize dependent (json_decode x). intros [m|] E; [|discriminate]. exists m. unfold hbind, hlift in E. cbn [of_opt] in E.
  destruct (jget m "tableSetName") as [[|y|y|n|l|m']|]; try discriminate.
  unfold jget_arr in E. destruct (jget m "tables") as [[|y|y|y|l|m']|]; try discriminate.
  destruct (tables_from_json_says wild l (NewTableSet n) h h' s W E) as (_ & ps & T & F). exists l, ps. auto.
Qed.

(** At most one integer and at most one float32 are what a number says. *)
Theorem C50_number_one : forall k f z z' n d, (0 < d)%Z -> has_value f n d -> in_range k (Z.quot n d) = true ->
  integer_part k f z -> integer_part k f z' -> z = z'.
Proof. intros k f z z' n d D V R [_ A] [_ B]. rewrite (A n d), (B n d); auto. Qed.

(** The cells of the first table of the document *)
Definition read_cells (r : heap * res tset) : option (list (list value)) :=
  match r with
  | (h', Ok s) => match ts_tables s with Some p :: _ => Some (rows (tab h' p)) | _ => None end
  | _ => None
  end.

(** What the document calls a cell does not matter, only its place: a row that names its cells in
    another order than the metadata puts them in the wrong columns. *)
Theorem C50_JSON_cell_names_refuted : forall wild,
  read_cells (NewTableSetFromJSON wild (in_table "{""width"":""int""},{""height"":""int""}" "[{""height"":1},{""width"":2}]") [])
  = Some [[VInt KInt 1; VInt KInt 2]].
Proof. intros wild. vm_compute. reflexivity. Qed.

(** A number that the column cannot hold is not refused: a fraction is dropped, an integer out of
    the range of the type becomes some other integer, and a short row is filled up. *)
Theorem C50_JSON_exact_refuted : forall wild,
  read_cells (NewTableSetFromJSON wild (in_table "{""a"":""int""},{""b"":""string""}" "[{""a"":-2.75}]") []) = Some [[VInt KInt (-2); VString ""]]
  /\ exists z, read_cells (NewTableSetFromJSON wild (in_table "{""a"":""int8""}" "[{""a"":300}]") []) = Some [[VInt KInt8 z]] /\ z <> 300%Z.
Proof.
  intros wild. split; [vm_compute; reflexivity|].
  set (x := in_table "{""a"":""int8""}" "[{""a"":300}]").
  assert (K : match read_cells (NewTableSetFromJSON wild x []) with Some [[VInt KInt8 _]] => true | _ => false end = true) by (vm_compute; reflexivity).
  destruct (NewTableSetFromJSON wild x []) as [h' r] eqn:E.
  destruct (json_set_new wild x [] wf_heap_nil) as [G _]. rewrite E in G. cbn [fst] in G.
  unfold read_cells in *. destruct r as [s| |]; try discriminate. destruct (ts_tables s) as [|[p|] l]; try discriminate.
  destruct (rows (tab h' p)) as [|[|[| | |[] z| | | | | |] []] []] eqn:R; try discriminate.
  exists z. split; [reflexivity|]. intros ->.
  assert (W : wf_table (tab h' p)).
  { destruct (nth_error h' p) as [t|] eqn:N.
    - unfold tab. rewrite (nth_error_nth h' p _ N). exact (Forall_nth_error _ _ _ _ (wh_tables _ (gr_wf _ _ G)) N).
    - apply nth_error_None in N. unfold tab in R. rewrite nth_overflow in R by exact N. discriminate. }
  pose proof (wf_cells _ W) as C. rewrite R in C. inversion C as [|? ? C1 _]. subst. inversion C1 as [|? ? ? ? C2]. subst. destruct C2 as [_ C2]. discriminate.
Qed.

(** A document with every kind of value; a nested table, null and a missing cell *)
Definition long_row : string :=
  "[{""s"":""x""},{""r"":""z""},{""t"":""1970-01-01T00:00:00Z""},{""b"":true},{""i"":7},{""f"":1.5},{""g"":0.1},{""y"":[1,255]},{""n"":{""tableName"":""U"",""metadata"":[{""b"":""rune""}],""data"":[[{""b"":""q""}],[]]}},{""m"":null}]".
Definition long_meta : string :=
  "{""s"":""string""},{""r"":""rune""},{""t"":""time.Time""},{""b"":""bool""},{""i"":""uint16""},{""f"":""float64""},{""g"":""float32""},{""y"":""[]byte""},{""n"":""*Table""},{""m"":""*Table""},{""z"":""int""}".
Example C50_cells_nonvacuous : exists h' s, NewTableSetFromJSON wild0 (in_table long_meta long_row) json_heap = (h', Ok s)
  /\ wf_heap json_heap /\ exists row, read_cells (h', Ok s) = Some [row] /\ List.length row = 11
  /\ nth_error row 4 = Some (VInt KUint16 7) /\ nth_error row 10 = Some (VInt KInt 0)
  /\ exists q, nth_error row 8 = Some (VTable (Some q)) /\ tname (tab h' q) = "U" /\ rows (tab h' q) = [[VInt KInt32 113]; [VInt KInt32 0]].
Proof.
  destruct (NewTableSetFromJSON wild0 (in_table long_meta long_row) json_heap) as [h' r] eqn:E.
  assert (K : (let (a, b) := NewTableSetFromJSON wild0 (in_table long_meta long_row) json_heap in
     match b, read_cells (a, b) with
     | Ok _, Some [row] => match nth_error row 8 with Some (VTable (Some q)) =>
           Some (List.length row, nth_error row 4, nth_error row 10, tname (tab a q), rows (tab a q)) | _ => None end
     | _, _ => None end) = Some (11, Some (VInt KUint16 7), Some (VInt KInt 0), "U", [[VInt KInt32 113]; [VInt KInt32 0]])) by (vm_compute; reflexivity).
  rewrite E in K. destruct r as [s| |]; try discriminate K. exists h', s. split; [reflexivity|].
  split; [apply (reachable_wf Proofs_Env.env0); [apply Proofs_Env.env0_ok|apply json_heap_reachable]|].
  destruct (read_cells (h', Ok s)) as [[|row [|? ?]]|]; try discriminate K. exists row. split; [reflexivity|].
  destruct (nth_error row 8) as [[| | | | | | |[q|]| |]|]; try discriminate K. injection K as K1 K2 K3 K4 K5. repeat (split; [assumption|]). exists q. auto.
Qed.

(** Axioms used by any theorem of this file. *)
Definition all_Props_JsonCells :=
  (@C50_JSON_cells,
   @C50_number_one,
   @C50_JSON_cell_names_refuted,
   @C50_JSON_exact_refuted).
Print Assumptions all_Props_JsonCells.
