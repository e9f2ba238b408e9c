(** Props_Abstract.v -- C11: the code refines a table that is just a list of columns. *)
From Coq Require Import ZArith NArith List String Ascii Bool SpecFloat Permutation Lia.
From Verif Require Import Base Model_Names Model_Table Model_Sort Model_Copy Model_Ops Model_Heap Spec Spec_Sort Spec_Heap Spec_Abstract
  Proofs_Lib Proofs_Table Proofs_Cells Proofs_Struct Proofs_Api Proofs_Pres Proofs_Copy Proofs_Sort Proofs_Keys Proofs_Env Proofs_Heap Props_Heap
  Proofs_Walk Proofs_Abstract Proofs_AbsStep Proofs_AbsStep2.
Import ListNotations.
Local Open Scope string_scope.
Local Open Scope list_scope.

(** Every reading method gives on a table the answer that the list of columns gives. *)
Theorem C11_observations : forall E h p t, env_ok E -> reachable E h -> nth_error h p = Some t -> same_answers t (abs t).
Proof. intros E h p t EO R N. apply abs_answers. destruct (reachable_wf E h EO R) as [F _]. eapply Forall_nth_error; eauto. Qed.

(** Every method that changes one table does to the list of columns what [astep] says. *)
Lemma step_sim : forall E t b o, env_ok E -> wf_table t -> op_typed b o = true -> sim E b o t.
Proof.
  intros E t b o EO W T. destruct o.
  - now apply sim_SetName.
  - now apply sim_SetStructShape.
  - now apply sim_AppendRow.
  - now apply sim_AppendRows.
  - now apply sim_DeleteRow.
  - now apply sim_DeleteRows.
  - now apply sim_DeleteRowsAll.
  - now apply sim_AppendCol.
  - now apply sim_DeleteCol.
  - now apply sim_DeleteColByColIndex.
  - now apply sim_RenameCol.
  - now apply sim_RenameColByColIndex.
  - apply andb_prop in T as [T _]. now apply sim_SetVal.
  - apply andb_prop in T as [T _]. now apply sim_SetValByColIndex.
  - apply andb_prop in T as [T _]. apply andb_prop in T as [T G]. apply andb_prop in T as [T1 T2]. apply str_in_In in T1. now apply sim_Set.
  - apply andb_prop in T as [T _]. apply andb_prop in T as [T G]. apply andb_prop in T as [T1 T2]. apply str_in_In in T1. now apply sim_SetByColIndex.
  - now apply sim_zero_cell.
  - now apply sim_zero_cell_no.
  - now apply sim_zero_row.
  - now apply sim_zero_col.
  - now apply sim_zero_col_no.
  - now apply sim_nan_row.
  - now apply sim_nan_all.
  - now apply sim_nan_col.
  - now apply sim_nan_col_no.
  - now apply sim_nan_cell.
  - now apply sim_nan_cell_no.
  - now apply reorder_names.
  - now apply sim_ReorderColsByColIndex.
  - now apply sim_Reverse.
  - now apply sim_Shuffle.
  - now apply sim_SetSortKeys.
  - now apply sim_SetSortKeysReverse.
  - now apply sim_AppendSortKey.
  - now apply sim_DeleteSortKey.
  - now apply sim_OSort.
  - now apply sim_OSortSimple.
  - now apply sim_OrderCols.
Qed.

Lemma only_table_abs (h : heap) p t' l : p < List.length h -> only_table p (abs t') (map abs h) (map abs (upd h p t' ++ new_nils p l)).
Proof.
  intros L. split.
  - rewrite nth_error_map, nth_error_app1 by (rewrite upd_length; exact L). rewrite nth_error_upd_eq by exact L. reflexivity.
  - intros q NE Q. rewrite map_length in Q. rewrite !nth_error_map, nth_error_app1 by (rewrite upd_length; exact Q).
    rewrite nth_error_upd_ne by congruence. reflexivity.
  - rewrite !map_length, app_length, upd_length. lia.
  - intros q. rewrite !map_length, app_length, upd_length. intros [Q1 Q2].
    rewrite nth_error_map, nth_error_app2 by (rewrite upd_length; exact Q1). rewrite upd_length. unfold new_nils in *. rewrite map_length in Q2.
    rewrite nth_error_map. destruct (nth_error l (q - List.length h)) as [x|] eqn:N; [destruct x; reflexivity|].
    apply nth_error_None in N. lia.
Qed.

Lemma map_abs_set_parent q p h : map abs (set_parent q p h) = map abs h.
Proof.
  unfold set_parent. apply nth_error_ext. intros i. rewrite !nth_error_map. destruct (Nat.eq_dec i q) as [->|D].
  - destruct (nth_error h q) as [t|] eqn:N.
    + rewrite nth_error_upd_eq by (apply nth_error_Some; congruence). rewrite (tab_nth _ _ _ N). reflexivity.
    + apply nth_error_None in N. assert (X : nth_error (upd h q (with_parent (Some p) (tab h q))) q = None)
        by (apply nth_error_None; rewrite upd_length; exact N). rewrite X. reflexivity.
  - rewrite nth_error_upd_ne by congruence. reflexivity.
Qed.

Lemma on_heap_sim E (h : heap) p o : env_ok E -> wf_heap h -> p < List.length h -> op_typed (List.length h) o = true ->
  acall E (map abs h) (HTab (Some p) o) (snd (nothing (on_heap p (exec E o) h))) (map abs (fst (on_heap p (exec E o) h))).
Proof.
  intros EO [F _] L T. unfold on_heap. destruct (nth_error h p) as [t|] eqn:N; [|apply nth_error_None in N; lia].
  assert (W : wf_table t) by (eapply Forall_nth_error; eauto).
  pose proof (step_sim E t (List.length h) o EO W T) as S. unfold sim, run in S.
  destruct (exec E o (mkS t (List.length h) [])) as [s r]. cbn [fst snd nothing] in *.
  replace (let! _ := r in Ok None) with (match r with Ok _ => Ok (@None ptr) | Err => Err | Panic => Panic end) by (destruct r; reflexivity).
  eapply ac_method with (a := abs t) (a' := abs (s_tab s)).
  - rewrite nth_error_map, N. reflexivity.
  - rewrite map_length. exact S.
  - now apply only_table_abs.
Qed.

Theorem C11_step : forall E h c, env_ok E -> reachable E h -> hop_typed h c = true -> one_table c ->
  acall E (map abs h) c (snd (hexec E c h)) (map abs (fst (hexec E c h))).
Proof.
  intros E h c EO R T O. pose proof (reachable_wf E h EO R) as WH. destruct c; cbn [one_table] in O; try contradiction.
  - cbn [hop_typed] in T. apply andb_prop in T as [T1 T2]. destruct o as [p|].
    + cbn [ref_in] in T1. apply Nat.ltb_lt in T1.
      pose proof (on_heap_sim E h p c EO WH T1 T2) as S.
      assert (SP : forall q, c = c -> acall E (map abs h) (HTab (Some p) c) (snd (nothing (on_heap p (exec E c) (set_parent q p h))))
        (map abs (fst (on_heap p (exec E c) (set_parent q p h))))).
      { intros q _. destruct (set_parent_wf q p h WH T1) as [WQ LQ].
        pose proof (on_heap_sim E (set_parent q p h) p c EO WQ) as S'. rewrite LQ, map_abs_set_parent in S'. now apply S'. }
      destruct c; try exact S.
      * destruct v as [| | | | | | |[q|]| | ]; try exact S. exact (SP q eq_refl).
      * destruct v as [| | | | | | |[q|]| | ]; try exact S. exact (SP q eq_refl).
    + assert (X : hexec E (HTab None c) h = (h, Err)) by (destruct c; reflexivity). rewrite X. apply ac_nil_receiver.
  - cbn [hexec]. unfold new_tab. rewrite SetName_eq. destruct (IsValidTableName n) eqn:V.
    + apply IsValidTableName_spec in V. unfold newly. cbn [fst snd rbind on_tab s_tab s_news new_nils map].
      rewrite map_app. rewrite <- (map_length abs h). apply (ac_new E (map abs h) n V).
    + cbn [newly fst snd rbind]. apply ac_new_bad. intros X. apply IsValidTableName_spec in X. congruence.
  - cbn [hexec]. unfold new_tab, ret, newly. cbn [fst snd rbind s_tab s_news new_nils map].
    rewrite map_app. rewrite <- (map_length abs h). apply (ac_new_nil E (map abs h)).
Qed.

(** So every history of calls on any number of tables gives, call by call, results that
    the lists of columns allow, and at its end every table answers like its list. *)
Theorem C11_history : forall E h cs rs h', env_ok E -> reachable E h -> calls_from E h cs rs h' ->
  reachable E h' /\ ahistory E (map abs h) cs rs (map abs h')
  /\ forall p t, nth_error h' p = Some t -> nth_error (map abs h') p = Some (abs t) /\ same_answers t (abs t).
Proof.
  intros E h cs rs h' EO R H.
  assert (X : reachable E h' /\ ahistory E (map abs h) cs rs (map abs h')).
  { induction H as [|cs rs h1 c H IH T O].
    - split; [exact R|apply ah_start].
    - destruct IH as [R1 A1]. split; [now apply reach_call|]. eapply ah_call; [exact A1|]. now apply C11_step. }
  destruct X as [R' A]. split; [exact R'|]. split; [exact A|]. intros p t N. split.
  - rewrite nth_error_map, N. reflexivity.
  - eapply C11_observations; eauto.
Qed.

(** ---------- a concrete history ---------- *)

Definition hist11 : list hop :=
  [ HNewTable "T"; HNewTable "U"; HNewTable "1bad";
    HTab (Some 0) (OAppendCol "k" "string"); HTab (Some 0) (OAppendCol "x" "float64"); HTab (Some 0) (OAppendCol "k" "int");
    HTab (Some 0) (OAppendRows 3);
    HTab (Some 0) (OSetVal "k" 0 (VString "b")); HTab (Some 0) (OSetVal "k" 2 (VString "a")); HTab (Some 0) (OSetVal "k" 3 (VString "z"));
    HTab (Some 1) OAppendRow;
    HTab (Some 0) (OSort ["k"]); HTab (Some 0) (ODeleteRow 0); HTab (Some 0) (ORenameCol "k" "key");
    HTab (Some 0) (OSetFloatCellToNaN "x" 1); HTab (Some 0) (OSetByColIndex "int" 7 0 (VInt KInt 1)) ].
Fixpoint play11 (cs : list hop) (h : heap) : option (list (res ref) * heap) :=
  match cs with
  | [] => Some ([], h)
  | c :: r => if hop_typed h c && match c with HTab _ _ | HNewTable _ | HNewNilTable => true | _ => false end then
                let '(h', x) := hexec env0 c h in
                match play11 r h' with Some (rs, h'') => Some (x :: rs, h'') | None => None end
              else None
  end.
Lemma play11_from h cs : forall cs1 rs1 h1 rs h2, calls_from env0 h cs1 rs1 h1 -> play11 cs h1 = Some (rs, h2) ->
  calls_from env0 h (cs1 ++ cs) (rs1 ++ rs) h2.
Proof.
  induction cs as [|c cs IH]; intros cs1 rs1 h1 rs h2 H P; cbn [play11] in P.
  - injection P as <- <-. rewrite !app_nil_r. exact H.
  - destruct (hop_typed h1 c) eqn:T; [|discriminate P]. cbn [andb] in P.
    destruct (match c with HTab _ _ | HNewTable _ | HNewNilTable => true | _ => false end) eqn:O; [|discriminate P].
    destruct (hexec env0 c h1) as [h' x] eqn:X. destruct (play11 cs h') as [[rs' h'']|] eqn:Q; [|discriminate P].
    injection P as <- <-. assert (O' : one_table c) by (destruct c; try discriminate O; exact I).
    pose proof (hi_call env0 h cs1 rs1 h1 c H T O') as H'. rewrite X in H'.
    pose proof (IH _ _ _ _ _ H' Q) as R. rewrite <- !app_assoc in R. exact R.
Qed.
Definition end11 : heap := Eval vm_compute in match play11 hist11 [] with Some (_, h) => h | None => [] end.

Example C11_nonvacuous :
  env_ok env0 /\ reachable env0 []
  /\ calls_from env0 [] hist11
       [Ok (Some 0); Ok (Some 1); Err; Ok None; Ok None; Err; Ok None; Ok None; Ok None; Err; Ok None; Ok None; Ok None; Ok None; Ok None; Panic] end11
  /\ map abs end11 =
       [ mkA (Some "T") false 2 [ mkCol "key" "string" [VString "a"; VString "b"];
                                  mkCol "x" "float64" [VFloat64 (S754_zero false); VFloat64 S754_nan] ] [mkKey "k" "string" false];
         mkA (Some "U") false 1 [] [] ].
Proof.
  split; [exact env0_ok|]. split; [constructor|]. split; [|vm_compute; reflexivity].
  refine (play11_from [] hist11 [] [] [] _ _ (hi_start env0 []) _). vm_compute. reflexivity.
Qed.

(** Axioms used by any theorem of this file. *)
Definition all_Props_Abstract :=
  (@C11_observations,
   @C11_step,
   @C11_history).
Print Assumptions all_Props_Abstract.
