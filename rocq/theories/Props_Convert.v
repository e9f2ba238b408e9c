(** Props_Convert.v -- C66: a table goes through any chain of formats unchanged. *)
From Coq Require Import ZArith NArith List String Ascii Bool SpecFloat Lia Relations.
From Verif Require Import Base Model_Names Model_Table Model_Sort Model_Ops Model_Heap Model_TableSet Model_Lex Model_Float Model_Time
  Model_Parser Model_Print Model_Json Model_Yaml Model_Gob Spec Spec_Sort Spec_Heap Spec_Walk Spec_Equals Spec_TableSet Spec_Text Spec_Json Spec_Yaml Spec_Gob Spec_Convert
  Proofs_Lib Proofs_Table Proofs_Cells Proofs_Pres Proofs_Api2 Proofs_Heap Proofs_Frame Proofs_Walk Proofs_Equals Proofs_TableSet Proofs_JsonText Proofs_Convert Proofs_SameText Samples
  Props_Heap Props_Equals Props_Parser Props_Text Props_Json Props_Yaml Props_Gob.
Import ListNotations.
Local Open Scope string_scope.
Local Open Scope list_scope.

(** ---------- chains ---------- *)

(** A named table without nested tables, that each of the formats alone keeps, is converted to
    any of these formats, read back, converted to the next one, and so on, any number of times
    and in any order.  No conversion is an error, and the last table has the name, the columns
    and the cells of the first.  It keeps the struct shape unless it went through a text format;
    it has no sort keys.  It is a new table, and no table of the program changes. *)
Theorem C66_chain : forall X text limit fs h (p : ptr), yaml_ok (o_yaml X) text limit -> 7 <= limit -> gob_ok (o_gob X) ->
  wf_heap h -> p < List.length h -> is_nil (tab h p) = false -> no_nested (tab h p) ->
  Forall (fun f => keeps_table X text f (tab h p)) fs ->
  exists h' (p' : ptr), chain X fs p h = (h', Ok (Some p')) /\ wf_heap h' /\ p' < List.length h' /\ (fs <> [] -> List.length h <= p')
    /\ same_data (tab h p) (tab h' p')
    /\ struct_shape (tab h' p') = (struct_shape (tab h p) && negb (existsb is_text fs))%bool
    /\ (fs <> [] -> skeys (tab h' p') = [])
    /\ (forall a, a < List.length h -> nth_error h' a = nth_error h a).
Proof.
  intros X text limit fs h p YO LIM GO. revert h p. induction fs as [|f fs IH]; intros h p WH L NN N K.
  - exists h, p. cbn [chain existsb negb]. rewrite andb_true_r. split; [reflexivity|]. split; [exact WH|]. split; [exact L|]. split; [congruence|].
    split; [apply same_data_refl|]. split; [reflexivity|]. split; [congruence|reflexivity].
  - inversion K as [|? ? K1 K2]; subst. destruct (one_conversion X text limit YO LIM GO f h p WH L NN N K1) as (h1 & p1 & E & WH1 & L1 & O1 & SD & SK & SS).
    cbn [chain]. rewrite E. destruct (tab_wf h1 p1 WH1) as [W1 _].
    assert (NN1 : is_nil (tab h1 p1) = false) by (rewrite (sd_nil _ _ SD); exact NN).
    assert (N1 : no_nested (tab h1 p1)) by (exact (nested_moved _ _ (sd_rows _ _ SD) N)).
    destruct (IH h1 p1 WH1 (proj2 L1) NN1 N1) as (h2 & p2 & E2 & WH2 & L2 & LN & SD2 & SS2 & SK2 & O2).
    { eapply Forall_impl; [|exact K2]. intros g. apply keeps_moved; auto. rewrite SS. now intros Q%andb_prop. }
    exists h2, p2. split; [exact E2|]. split; [exact WH2|]. split; [exact L2|].
    assert (LE : List.length h <= List.length h1) by (unfold ptr in *; lia).
    split; [|split; [exact (same_data_trans _ _ _ SD SD2)|split; [|split]]].
    + intros _. destruct fs as [|g fs']; [cbn [chain] in E2; injection E2 as <- <-; apply L1|]. specialize (LN ltac:(discriminate)). unfold ptr in *; lia.
    + rewrite SS2, SS. cbn [existsb]. rewrite negb_orb. now rewrite andb_assoc.
    + intros _. destruct fs as [|g fs']; [cbn [chain] in E2; injection E2 as <- <-; exact SK|]. apply SK2. discriminate.
    + intros a LA. rewrite O2 by lia. now apply O1.
Qed.

(** ---------- Equals ---------- *)

Lemma data_equal t t' : wf_table t -> wf_table t' -> is_nil t = false -> no_nan t -> same_data t t' -> same_table t t'.
Proof.
  intros W W' NN NA [D2 D3 D4 D7 D1].
  assert (CI : forall cn, mget (cmap t') cn = mget (cmap t) cn).
  { intros cn. destruct (mget (cmap t) cn) as [i|] eqn:G.
    - apply (wf_map _ W) in G. rewrite <- D3 in G. apply (wf_map _ W') in G. now rewrite G.
    - destruct (mget (cmap t') cn) as [i|] eqn:G'; [|reflexivity]. apply (wf_map _ W') in G'. rewrite D3 in G'. apply (wf_map _ W) in G'. congruence. }
  split; [now symmetry|]. split; [unfold RowCount; now rewrite (Forall2_len _ _ _ D7)|]. split.
  - intros cn ct. unfold ColType. rewrite D4, CI. reflexivity.
  - intros cn r v w G1 G2. destruct (GetVal_ok _ _ _ _ W G1) as (c & _ & _ & GV). destruct (NA _ _ _ GV) as [NA1 NA2]. clear GV c.
    unfold GetVal, ColIndex in G1, G2. rewrite NN in G1. rewrite D1, NN, CI in G2. destruct (mget (cmap t) cn) as [i|]; cbn [rbind] in G1, G2; [|discriminate].
    rewrite get_at in G1, G2 by assumption. destruct (_ && _)%bool; [|discriminate].
    destruct (at_cell t _ _) as [a|] eqn:A; [|discriminate]. destruct (at_cell t' _ _) as [b|] eqn:B; [|discriminate].
    injection G1 as ->. injection G2 as ->. apply gob_cell_same; try assumption.
    unfold at_cell in A, B. destruct (nth_error (rows t) _) as [row|] eqn:R; [|discriminate].
    destruct (Forall2_nth _ _ _ _ _ D7 R) as (row' & R' & F). rewrite R' in B. destruct (Forall2_nth _ _ _ _ _ F A) as (w' & B' & GC).
    rewrite B in B'. injection B' as <-. exact GC.
Qed.

(** The last table equals the first if no cell is NaN. *)
Theorem C66_equal : forall X text limit fs h (p : ptr) h' p' fuel, yaml_ok (o_yaml X) text limit -> 7 <= limit -> gob_ok (o_gob X) ->
  wf_heap h -> p < List.length h -> is_nil (tab h p) = false -> no_nested (tab h p) -> no_nan (tab h p) ->
  Forall (fun f => keeps_table X text f (tab h p)) fs -> chain X fs p h = (h', Ok (Some p')) ->
  Equals (S fuel) h' (Some p) (Some p') = Ok tt /\ Equals (S fuel) h' (Some p') (Some p) = Ok tt.
Proof.
  intros X text limit fs h p h' p' fuel YO LIM GO WH L NN N NA K E.
  destruct (C66_chain X text limit fs h p YO LIM GO WH L NN N K) as (h2 & p2 & E2 & WH2 & L2 & _ & SD & _ & _ & O2). rewrite E in E2. injection E2 as <- <-.
  assert (T : tab h' p = tab h p) by (apply tab_eq; now apply O2).
  assert (Lp : p < List.length h'). { apply nth_error_Some. rewrite O2 by exact L. now apply nth_error_Some. }
  destruct (tab_wf h p WH) as [W _], (tab_wf h' p' WH2) as [W' _].
  pose proof (data_equal _ _ W W' NN NA SD) as ST. pose proof (nested_moved _ _ (sd_rows _ _ SD) N) as N'.
  destruct (C15_Equals_exactly_the_same_tables fuel h' p p' WH2 Lp L2) as [Q _]; [now rewrite T|exact N'|].
  destruct (C15_Equals_exactly_the_same_tables fuel h' p' p WH2 L2 Lp) as [Q' _]; [exact N'|now rewrite T|].
  rewrite T in *. split; [now apply Q|apply Q'; now apply same_table_sym].
Qed.

(** Two programs that convert the same table along different routes end with the same data. *)
Theorem C66_routes : forall X text limit fs gs h (p : ptr) h1 p1 h2 p2, yaml_ok (o_yaml X) text limit -> 7 <= limit -> gob_ok (o_gob X) ->
  wf_heap h -> p < List.length h -> is_nil (tab h p) = false -> no_nested (tab h p) ->
  Forall (fun f => keeps_table X text f (tab h p)) (fs ++ gs) ->
  chain X fs p h = (h1, Ok (Some p1)) -> chain X gs p h = (h2, Ok (Some p2)) -> same_data (tab h1 p1) (tab h2 p2).
Proof.
  intros X text limit fs gs h p h1 p1 h2 p2 YO LIM GO WH L NN N K E1 E2. apply Forall_app in K as [K1 K2].
  destruct (C66_chain X text limit fs h p YO LIM GO WH L NN N K1) as (? & ? & F1 & _ & _ & _ & SD1 & _). rewrite E1 in F1. injection F1 as <- <-.
  destruct (C66_chain X text limit gs h p YO LIM GO WH L NN N K2) as (? & ? & F2 & _ & _ & _ & SD2 & _). rewrite E2 in F2. injection F2 as <- <-.
  exact (same_data_trans _ _ _ (same_data_sym _ _ SD1) SD2).
Qed.

(** ---------- the same text ---------- *)

(** After the chain, the table is written as the same text as before it, byte for byte: as
    unpadded and as padded text if that format keeps the table; as JSON if it is not in struct
    shape or did not go through a text format. *)
Theorem C66_same_text : forall X text limit fs h (p : ptr) h' p', yaml_ok (o_yaml X) text limit -> 7 <= limit -> gob_ok (o_gob X) ->
  wf_heap h -> p < List.length h -> is_nil (tab h p) = false -> no_nested (tab h p) ->
  Forall (fun f => keeps_table X text f (tab h p)) fs -> chain X fs p h = (h', Ok (Some p')) ->
  (unpadded_table (tab h p) -> StringUnpadded (o_ip X) h' (tab h' p') = StringUnpadded (o_ip X) h (tab h p))
  /\ (padded_table (tab h p) -> StringPadded (o_ip X) h' (tab h' p') = StringPadded (o_ip X) h (tab h p))
  /\ (struct_shape (tab h p) = false \/ existsb is_text fs = false -> GetTableAsJSON (o_ip X) h' (Some p') = GetTableAsJSON (o_ip X) h (Some p)).
Proof.
  intros X text limit fs h p h' p' YO LIM GO WH L NN N K E.
  destruct (C66_chain X text limit fs h p YO LIM GO WH L NN N K) as (h2 & p2 & E2 & WH2 & L2 & _ & SD & SS & SK & _). rewrite E in E2. injection E2 as <- <-.
  destruct (tab_wf h' p' WH2) as [W' _].
  assert (SH : struct_shape (tab h' p') = true -> struct_shape (tab h p) = true) by (rewrite SS; now intros Q%andb_prop).
  split; [|split].
  - intros U. apply unpadded_moved; auto. eapply text_moved; eauto. apply plain_cell_moved.
  - intros U. apply padded_moved; auto. eapply text_moved; eauto. apply padded_cell_moved.
  - intros S. apply json_moved; auto. rewrite SS. destruct S as [->| ->]; [reflexivity|apply andb_true_r].
Qed.

(** Otherwise it may differ: a table in struct shape with two rows is in table shape after it was
    written and read as text. *)
Definition shaped_text : string := text2 "[S]~i int = 5~s string = |x|~".
Definition shaped_row : table := Eval vm_compute in tab (fst (NewTableFromString shaped_text [])) 0.
Definition shaped : table := Eval vm_compute in fst (run AppendRow 0 shaped_row).
Theorem C66_struct_shape_refuted : exists X h p h' p', wf_heap h /\ unpadded_table (tab h p) /\ struct_shape (tab h p) = true
  /\ chain X [AsUnpadded] p h = (h', Ok (Some p')) /\ struct_shape (tab h' p') = false
  /\ GetTableAsJSON (o_ip X) h' (Some p') <> GetTableAsJSON (o_ip X) h (Some p).
Proof.
  assert (R : NewTableFromString shaped_text [] = ([shaped_row], Ok (Some 0))) by (vm_compute; reflexivity).
  assert (W : wf_table shaped). { change shaped with (fst (run AppendRow 0 shaped_row)). apply run_pres; [apply pres_AppendRow|exact (wf_read _ _ R)|unfold ptrs_lt; cbn; repeat constructor]. }
  assert (WH : wf_heap [shaped]) by (apply (wf_heap_snoc [] shaped wf_heap_nil W); reflexivity).
  exists (mkO yes (fun _ _ => 0%Z) yaml0 gob0), [shaped], 0.
  let r := eval vm_compute in (chain (mkO yes (fun _ _ => 0%Z) yaml0 gob0) [AsUnpadded] 0 [shaped]) in match r with (?a, Ok (Some ?b)) => exists a, b end.
  split; [exact WH|]. split.
  { split; [exact W|]. split; [reflexivity|]. split; [each; vm_compute; reflexivity|]. split; [right; cbn; lia|]. split; [discriminate|].
    split; [each; unfold unpadded_type; cbn; intuition discriminate|]. each; try exact I; cbn; try (intros _; unfold unicode; lia); try discriminate. }
  split; [reflexivity|]. split; [vm_compute; reflexivity|]. split; [reflexivity|]. intros Q. vm_compute in Q. discriminate Q.
Qed.

(** ---------- a concrete case ---------- *)

Definition trip_text : string := text2 "[Trip]~i s f b r~int string float64 bool rune~-7 |a b^|x^|| 2.5 true 'q'~0 || -0.125 false 'z'~".
Definition trip : table := Eval vm_compute in tab (fst (NewTableFromString trip_text [])) 0.
Definition trip_outside : outside := mkO yes (fun _ _ => 0%Z) yaml0 gob0.
Definition all_formats : list format := [AsUnpadded; AsJSON; AsYAML; AsGob; AsPadded].
Example C66_nonvacuous :
  yaml_ok (o_yaml trip_outside) any_text 10 /\ gob_ok (o_gob trip_outside) /\ wf_heap [trip] /\ is_nil trip = false /\ no_nested trip /\ no_nan trip
  /\ Forall (fun f => keeps_table trip_outside any_text f trip) (all_formats ++ all_formats)
  /\ List.length (rows trip) = 2 /\ List.length (ctypes trip) = 5.
Proof.
  split; [apply yaml0_ok|]. split; [apply gob0_ok|].
  assert (R : NewTableFromString trip_text [] = ([trip], Ok (Some 0))) by (vm_compute; reflexivity).
  pose proof (wf_read _ _ R) as W. destruct (C26_NewTableFromString trip_text [] [trip] (Some 0) wf_heap_nil R) as (WH & _).
  split; [exact WH|]. split; [reflexivity|]. split; [reflexivity|]. split; [|split; [|split; reflexivity]].
  - intros c r v G. rewrite get_at in G by exact W. destruct (_ && _)%bool; [|discriminate G]. unfold at_cell in G.
    destruct (nth_error (rows trip) (Z.to_nat r)) as [row|] eqn:RO; [|discriminate G]. destruct (nth_error row (Z.to_nat c)) as [w|] eqn:V; [|discriminate G].
    injection G as ->. apply nth_error_In in RO. apply nth_error_In in V. cbn [trip rows In] in RO. destruct RO as [<-|[<-|[]]]; cbn [In] in V; intuition (subst; discriminate).
  - assert (K : Forall (fun f => keeps_table trip_outside any_text f trip) all_formats); [|apply Forall_app; split; exact K].
    assert (RU : forall z, (32 <= z < 127)%Z -> json_rune yes z). { intros z Z1. split; [left; lia|left; lia]. }
    each; cbn [keeps_table].
    + split; [exact W|]. split; [reflexivity|]. split; [each; vm_compute; reflexivity|]. split; [left; reflexivity|]. split; [discriminate|].
      split; [each; unfold unpadded_type; cbn; intuition discriminate|]. each; try exact I; cbn; try (intros _; unfold unicode; lia); try discriminate.
    + split; [apply ascii_text; reflexivity|]. split; [each; apply ascii_text; reflexivity|]. each; try (apply ascii_text; reflexivity); try exact I; try (apply RU; lia).
      * exists 7%Z, 0%Z. lia.
      * exists 0%Z, 0%Z. lia.
    + split; [exact I|]. split; [each; exact I|]. each; try exact I; intros z [_ Z1].
      * change (z * 2 ^ 51 = 5 * 2 ^ 50)%Z in Z1. lia.
      * change (z * 2 ^ 55 = - 2 ^ 52)%Z in Z1. lia.
    + split; [reflexivity|]. each; reflexivity.
    + split; [exact W|]. split; [reflexivity|]. split; [each; vm_compute; reflexivity|]. split; [left; reflexivity|]. split; [discriminate|].
      split; [each; discriminate|]. each; (split; [|split]); try exact I; cbn; try (intros _; unfold unicode; lia); intuition (discriminate || lia).
Qed.

(** Axioms used by any theorem of this file. *)
Definition all_Props_Convert :=
  (@C66_chain,
   @C66_equal,
   @C66_routes,
   @C66_same_text,
   @C66_struct_shape_refuted).
Print Assumptions all_Props_Convert.
