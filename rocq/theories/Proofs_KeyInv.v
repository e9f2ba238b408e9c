(** Proofs_KeyInv.v -- sort keys over histories: they keep naming columns as long as no key
    column is deleted or renamed. *)
From Coq Require Import ZArith NArith List String Ascii Bool Permutation Lia.
From Verif Require Import Base Model_Names Model_Table Model_Sort Model_Copy Model_Merge Model_Ops Model_Heap.
From Verif Require Import Spec Spec_Sort Spec_Heap Spec_Frame Spec_Keys Spec_Copy.
From Verif Require Import Proofs_Lib Proofs_Table Proofs_Cells Proofs_Struct Proofs_Api Proofs_Pres Proofs_Copy Proofs_Heap Proofs_Frame.
Import ListNotations.
Local Open Scope string_scope.
Local Open Scope list_scope.

(** ---------- methods that keep a projection of the table ---------- *)

Definition kp {B A} (g : table -> B) (m : M A) : Prop := forall s, g (s_tab (fst (m s))) = g (s_tab s).
Section KP.
  Context {B : Type} (g : table -> B).
  Lemma kp_id {A} (m : M A) : (forall s, s_tab (fst (m s)) = s_tab s) -> kp g m.
  Proof. intros H s. now rewrite H. Qed.
  Lemma kp_bind {A C} (m : M A) (f : A -> M C) : kp g m -> (forall a, kp g (f a)) -> kp g (bind m f).
  Proof. intros H1 H2 s. unfold bind. specialize (H1 s). destruct (m s) as [s' [a| |]]; simpl in *; auto. now rewrite H2. Qed.
  Lemma kp_mfor {A} (l : list A) body : (forall x, kp g (body x)) -> kp g (mfor l body).
  Proof. intros H. induction l; simpl; [now apply kp_id|]. now apply kp_bind. Qed.
  Lemma kp_modify f : (forall t, g (f t) = g t) -> kp g (modify f).
  Proof. intros H s. simpl. apply H. Qed.
  Lemma kp_set_cell ci ri v : (forall rs t, g (with_rows rs t) = g t) -> kp g (set_cell ci ri v).
  Proof.
    intros H s. unfold set_cell. destruct (zidx ri _); auto. destruct (nth_error _ _); auto. destruct (zidx ci _); auto. apply H.
  Qed.
  Lemma kp_on_err {A} (m k : M A) : kp g m -> kp g k -> kp g (on_err m k).
  Proof. intros H1 H2 s. unfold on_err. specialize (H1 s). destruct (m s) as [s' [a| |]]; simpl in *; auto. now rewrite H2. Qed.
End KP.
Create HintDb kp.
Ltac kpt := repeat first
  [ assumption
  | progress cbv zeta
  | solve [auto 2 with kp nocore]
  | apply kp_set_cell; reflexivity
  | apply kp_bind; [|intros ?]
  | apply kp_mfor; intros ?
  | apply kp_on_err
  | apply kp_modify; intros ?; reflexivity
  | apply kp_id; intros ?; reflexivity
  | match goal with
    | |- kp _ (if ?c then _ else _) => destruct c
    | |- kp _ (match ?c with _ => _ end) => destruct c
    | |- kp _ (check ?c) => destruct c
    end
  ].

(** The header and the keys. *)
Definition hk (t : table) := (cnames t, ctypes t, skeys t).

Lemma hk_SetT vt cn ri v : kp hk (SetT vt cn ri v). Proof. unfold SetT. kpt. Qed.
Lemma hk_SetTByColIndex vt ci ri v : kp hk (SetTByColIndex vt ci ri v). Proof. unfold SetTByColIndex. kpt. Qed.
Lemma hk_SetValByColIndex ci ri v : kp hk (SetValByColIndex ci ri v). Proof. unfold SetValByColIndex. kpt. Qed.
#[export] Hint Resolve hk_SetT hk_SetTByColIndex hk_SetValByColIndex : kp.
Lemma hk_SetVal cn ri v : kp hk (SetVal cn ri v). Proof. unfold SetVal. kpt. Qed.
Lemma hk_zero_val b ct : kp hk (zero_val b ct). Proof. unfold zero_val, alloc. kpt. Qed.
#[export] Hint Resolve hk_SetVal hk_zero_val : kp.
Lemma hk_SetCellZ ci ri : kp hk (SetCellToZeroValueByColIndex ci ri).
Proof. unfold SetCellToZeroValueByColIndex. kpt. Qed.
#[export] Hint Resolve hk_SetCellZ : kp.
Lemma hk_SetRowZ ri : kp hk (SetRowCellsToZeroValue ri).
Proof. unfold SetRowCellsToZeroValue. kpt. Qed.
#[export] Hint Resolve hk_SetRowZ : kp.
Lemma hk_sortByKeys E : kp hk (sortByKeys E). Proof. unfold sortByKeys. kpt. Qed.
Lemma hk_DeleteRows a b : kp hk (DeleteRows a b). Proof. unfold DeleteRows. kpt. Qed.
Lemma hk_AppendRow : kp hk AppendRow. Proof. unfold AppendRow. kpt. Qed.
Lemma hk_FloatNaN ci ri : kp hk (SetFloatCellToNaNByColIndex ci ri). Proof. unfold SetFloatCellToNaNByColIndex. kpt. Qed.
#[export] Hint Resolve hk_sortByKeys hk_DeleteRows hk_AppendRow hk_FloatNaN : kp.
Lemma hk_DeleteRow i : kp hk (DeleteRow i).
Proof.
  unfold DeleteRow. apply kp_bind; [kpt|intros t]. apply kp_bind; [kpt|intros _]. intros s. pose proof (hk_DeleteRows i i s) as K.
  destruct (DeleteRows i i s) as [s' [| |]]; simpl in *; auto.
Qed.
Lemma hk_AppendRowsFromTable src f l : kp hk (AppendRowsFromTable src f l).
Proof. unfold AppendRowsFromTable. kpt. Qed.
#[export] Hint Resolve hk_DeleteRow hk_AppendRowsFromTable : kp.
Lemma kp_hk_skeys {A} (m : M A) : kp hk m -> kp skeys m.
Proof. intros H s. specialize (H s). unfold hk in H. congruence. Qed.
Lemma sk_AppendCol cn ct : kp skeys (AppendCol cn ct).
Proof.
  unfold AppendCol, SetColCellsToZeroValue, SetColCellsToZeroValueByColIndex.
  kpt; apply kp_hk_skeys; kpt.
Qed.
#[export] Hint Resolve sk_AppendCol : kp.
Lemma sk_AppendColsFromTable src : kp skeys (AppendColsFromTable src).
Proof. unfold AppendColsFromTable. kpt. Qed.
Lemma sk_AppendRowsFromTable src f l : kp skeys (AppendRowsFromTable src f l).
Proof. apply kp_hk_skeys. kpt. Qed.
Lemma sk_AppendRow : kp skeys AppendRow.
Proof. apply kp_hk_skeys. kpt. Qed.
Lemma sk_SetT vt cn ri v : kp skeys (SetT vt cn ri v). Proof. apply kp_hk_skeys. kpt. Qed.
#[export] Hint Resolve sk_AppendColsFromTable sk_AppendRowsFromTable sk_AppendRow sk_SetT : kp.

(** ---------- a step that keeps the columns and adds only good keys ---------- *)

Definition has_col (t : table) (cn ct : string) : Prop :=
  exists i, nth_error (cnames t) i = Some cn /\ nth_error (ctypes t) i = Some ct.
Definition key_ok (t : table) (k : skey) : Prop := has_col t (k_col k) (k_type k) /\ In (k_type k) sortable_types.
Definition step (t t' : table) : Prop :=
  (forall k, In k (skeys t') -> (exists k0, In k0 (skeys t) /\ k_col k0 = k_col k /\ k_type k0 = k_type k) \/ key_ok t' k)
  /\ (forall cn ct, has_col t cn ct -> has_col t' cn ct).

Lemma keys_ok_iff t : keys_ok t <-> forall k, In k (skeys t) -> key_ok t k.
Proof.
  unfold keys_ok. rewrite Forall_forall. split; intros H k I; specialize (H k I).
  - destruct H as (i & A & B & C). split; auto. now exists i.
  - destruct H as ((i & A & B) & C). now exists i.
Qed.
Lemma step_refl t : step t t.
Proof. split; auto. intros k I. left. now exists k. Qed.
Lemma step_trans t1 t2 t3 : step t1 t2 -> step t2 t3 -> step t1 t3.
Proof.
  intros [K1 C1] [K2 C2]. split; [|auto]. intros k I. destruct (K2 k I) as [(k0 & I0 & A & B)|O]; [|auto].
  destruct (K1 k0 I0) as [(k1 & I1 & A1 & B1)|[O S]].
  - left. exists k1. repeat split; auto; congruence.
  - right. rewrite A, B in *. split; auto.
Qed.
Lemma step_same t t' : hk t' = hk t -> step t t'.
Proof.
  unfold hk. intros H. injection H as A B C. split.
  - rewrite C. intros k I. left. now exists k.
  - unfold has_col. now rewrite A, B.
Qed.
Lemma keys_ok_step t t' : keys_ok t -> step t t' -> keys_ok t'.
Proof.
  rewrite !keys_ok_iff. intros K [S C] k I. destruct (S k I) as [(k0 & I0 & A & B)|O]; auto.
  destruct (K k0 I0) as [O S0]. rewrite A, B in *. split; auto.
Qed.
Lemma keys_ok_nil t : skeys t = [] -> keys_ok t.
Proof. intros H. apply keys_ok_iff. rewrite H. intros k []. Qed.

Definition kr (b : nat) {A} (m : M A) : Prop :=
  forall s, s_base s = b -> good s -> good (fst (m s)) /\ s_base (fst (m s)) = b /\ step (s_tab s) (s_tab (fst (m s))).
Lemma kr_pres b {A} (m : M A) : pres b m -> (forall s, good s -> step (s_tab s) (s_tab (fst (m s)))) -> kr b m.
Proof. intros P S s Hb G. destruct (P s Hb G) as (G' & B' & _). split; [auto|]. split; [congruence|auto]. Qed.
Lemma kr_hk b {A} (m : M A) : pres b m -> kp hk m -> kr b m.
Proof. intros P K. apply kr_pres; auto. intros s _. now apply step_same. Qed.
Lemma kr_bind b {A C} (m : M A) (f : A -> M C) : kr b m -> (forall a, kr b (f a)) -> kr b (bind m f).
Proof.
  intros H1 H2 s Hb G. unfold bind. destruct (H1 s Hb G) as (G1 & B1 & S1). destruct (m s) as [s1 [a| |]]; simpl in *; auto.
  destruct (H2 a s1 B1 G1) as (G2 & B2 & S2). split; [auto|]. split; [auto|]. eapply step_trans; eauto.
Qed.
Lemma kr_mfor b {A} (l : list A) body : (forall x, kr b (body x)) -> kr b (mfor l body).
Proof.
  intros H. induction l; simpl; [apply kr_hk; [apply pres_ret|kpt]|]. now apply kr_bind.
Qed.
Lemma kr_read b {A} (m : M A) : (forall s, fst (m s) = s) -> kr b m.
Proof. intros H s Hb G. rewrite H. split; [auto|]. split; [auto|]. apply step_refl. Qed.
Lemma kr_on_err b {A} (m k : M A) : kr b m -> kr b k -> kr b (on_err m k).
Proof.
  intros H1 H2 s Hb G. unfold on_err. destruct (H1 s Hb G) as (G1 & B1 & S1). destruct (m s) as [s1 [a| |]]; simpl in *; auto.
  destruct (H2 s1 B1 G1) as (G2 & B2 & S2). split; [auto|]. split; [auto|]. eapply step_trans; eauto.
Qed.

Lemma kr_AppendCol b cn ct : kr b (AppendCol cn ct).
Proof.
  apply kr_pres; [apply pres_AppendCol|]. intros s [W _]. rewrite AppendCol_eq by auto.
  destruct (can_append_col _ _ _); [|apply step_refl]. cbn [fst col_added s_tab]. split.
  - intros k I. left. exists k. auto.
  - intros n t (i & A & B). exists i. cbn [cnames ctypes]. rewrite !nth_error_app1; auto; eapply nth_error_some_lt; eauto.
Qed.
Lemma kr_ReorderColsByColIndex b order : kr b (ReorderColsByColIndex order).
Proof.
  apply kr_pres; [apply pres_ReorderColsByColIndex|]. intros s [W _].
  destruct (ReorderColsByColIndex_eq order s) as [[P ->]|[_ ->]]; [|apply step_refl].
  cbn [fst on_tab s_tab]. split.
  - intros k I. left. exists k. auto.
  - intros n t (i & A & B). unfold has_col, reordered. cbn [cnames ctypes].
    assert (I : In (Z.of_nat i) order).
    { eapply Permutation_in; [symmetry; exact P|]. apply nth_error_some_lt in A. unfold zseq. apply in_map. apply in_seq. lia. }
    apply In_nth_error in I as [j J]. exists j. rewrite !nth_error_permute, J. cbn [option_map].
    rewrite Nat2Z.id, (nth_error_nth _ _ _ A), (nth_error_nth _ _ _ B). auto.
Qed.
Lemma kr_AppendSortKey b cn : kr b (AppendSortKey cn).
Proof.
  apply kr_pres; [apply pres_AppendSortKey|]. intros s [W _]. unfold AppendSortKey. mstep.
  destruct (ColType (s_tab s) cn) as [ct| |] eqn:E; [|apply step_refl..]. mstep.
  destruct (ct =? ""); [apply step_refl|]. mstep. cbn [negb].
  destruct (str_in ct sortable_types) eqn:ES; [|apply step_refl]. mstep. cbn [fst on_tab s_tab].
  split; [|unfold has_col; auto]. cbn [skeys with_skeys]. intros k I. apply in_app_or in I as [I|[<-|[]]].
  - left. now exists k.
  - right. split; [|now apply str_in_In]. apply (wf_ColType_iff _ W) in E. exact E.
Qed.
Lemma step_keys ks t : (forall k, In k ks -> exists k0, In k0 (skeys t) /\ k_col k0 = k_col k /\ k_type k0 = k_type k) -> step t (with_skeys ks t).
Proof. intros H. split; [|unfold has_col; auto]. intros k I. left. now apply H. Qed.
Lemma kr_clear b : kr b (modify (with_skeys [])).
Proof. apply kr_pres; [apply pres_skeys_const|]. intros s _. apply step_keys. intros k []. Qed.
Lemma kr_SetSortKeys b cns : kr b (SetSortKeys cns).
Proof. unfold SetSortKeys. apply kr_bind; [apply kr_clear|intros _]. apply kr_mfor. intros. apply kr_AppendSortKey. Qed.
Lemma kr_setSortKeyReverse b cn : kr b (setSortKeyReverse cn).
Proof.
  apply kr_pres; [apply pres_setSortKeyReverse|]. intros s _. unfold setSortKeyReverse. mstep.
  destruct (Nat.eqb _ _); [apply step_refl|]. mstep. cbn [negb].
  match goal with |- step _ (s_tab (fst (check _ ?x))) => replace (s_tab (fst (check _ x))) with (s_tab x) by (unfold check; now destruct (existsb _ _)) end.
  cbn [on_tab s_tab]. apply step_keys. intros k I. apply in_map_iff in I as (k0 & <- & I). exists k0. split; auto.
  now destruct (k_col k0 =? cn).
Qed.
Lemma kr_SetSortKeysReverse b cns : kr b (SetSortKeysReverse cns).
Proof. unfold SetSortKeysReverse. apply kr_mfor. intros. apply kr_setSortKeyReverse. Qed.
Lemma kr_SetSortKeysFromTable b t : kr b (SetSortKeysFromTable t).
Proof.
  unfold SetSortKeysFromTable. apply kr_bind; [apply kr_read; intros; now destruct (negb _)|intros _].
  apply kr_bind; [apply kr_read; intros s; reflexivity|intros p].
  apply kr_bind; [apply kr_SetSortKeys|intros _; apply kr_SetSortKeysReverse].
Qed.
Lemma kr_sortByKeys b E : env_ok E -> kr b (sortByKeys E).
Proof. intros EO. apply kr_hk; [now apply pres_sortByKeys|kpt]. Qed.
Lemma kr_Sort b E cns : env_ok E -> kr b (Sort E cns).
Proof.
  intros EO. unfold Sort. apply kr_bind; [destruct (Nat.ltb _ _); [apply kr_SetSortKeys|now apply kr_read]|intros _].
  apply kr_bind; [now apply kr_read|intros t]. apply kr_bind; [apply kr_read; intros; now destruct (negb _)|intros _]. now apply kr_sortByKeys.
Qed.
Lemma kr_SortSimple b E cns : env_ok E -> kr b (SortSimple E cns).
Proof.
  intros EO. unfold SortSimple. apply kr_bind; [apply kr_read; intros; now destruct (negb _)|intros _].
  apply kr_bind; [apply kr_SetSortKeys|intros _; now apply kr_sortByKeys].
Qed.
Lemma kr_ReorderCols b o : kr b (ReorderCols o).
Proof.
  unfold ReorderCols. apply kr_bind; [now apply kr_read|intros t]. apply kr_bind; [apply kr_read; intros; now destruct (Nat.eqb _ _)|intros _].
  apply kr_bind; [now apply kr_read|intros order]. apply kr_ReorderColsByColIndex.
Qed.
Lemma kr_OrderColsBySortKeys b : kr b OrderColsBySortKeys.
Proof.
  unfold OrderColsBySortKeys. apply kr_bind; [now apply kr_read|intros t]. cbv zeta.
  apply kr_bind; [apply kr_read; intros; now destruct (Nat.ltb _ _)|intros _].
  apply kr_bind; [now apply kr_read|intros _]. apply kr_ReorderCols.
Qed.
Lemma kr_DeleteSortKey b cn : kr b (DeleteSortKey cn).
Proof.
  apply kr_pres; [apply pres_DeleteSortKey|]. intros s _. unfold DeleteSortKey. mstep.
  destruct (ColType (s_tab s) cn) as [ct| |]; [|apply step_refl..]. mstep.
  destruct (find_key cn (skeys (s_tab s)) 0) as [i|]; [|apply step_refl]. cbn [fst modify on_tab s_tab].
  apply step_keys. intros k I. exists k. split; auto. unfold remove_at in I.
  apply in_app_or in I as [I|I]; [rewrite <- (firstn_skipn i)|rewrite <- (firstn_skipn (S i))]; apply in_or_app; auto.
Qed.
Lemma kr_AppendColsFromTable b src : kr b (AppendColsFromTable src).
Proof.
  unfold AppendColsFromTable. apply kr_bind; [now apply kr_read|intros t].
  apply kr_bind; [apply kr_read; intros; now destruct (negb _)|intros _].
  apply kr_bind; [now apply kr_read|intros ci]. apply kr_mfor. intros ri.
  apply kr_bind; [now apply kr_read|intros cn]. apply kr_bind; [now apply kr_read|intros ct].
  apply kr_on_err; [apply kr_AppendCol|]. apply kr_bind; [now apply kr_read|intros has].
  apply kr_bind; [apply kr_read; intros; now destruct has|intros _].
  apply kr_bind; [now apply kr_read|intros ct']. apply kr_read. intros; now destruct (ct =? ct').
Qed.

Definition cuts (o : op) : bool :=
  match o with ODeleteCol _ | ODeleteColByColIndex _ | ORenameCol _ _ | ORenameColByColIndex _ _ => true | _ => false end.
Lemma kr_exec b E o : env_ok E -> op_typed b o = true -> cuts o = false -> kr b (exec E o).
Proof.
  intros EO T C. pose proof (exec_pres b E o EO T) as P.
  destruct o; cbn [exec] in *; try discriminate;
    first [apply kr_AppendCol|apply kr_ReorderCols|apply kr_ReorderColsByColIndex|apply kr_SetSortKeys|apply kr_SetSortKeysReverse
          |apply kr_AppendSortKey|apply kr_DeleteSortKey|now apply kr_Sort|now apply kr_SortSimple|apply kr_OrderColsBySortKeys|apply kr_hk; [exact P|]]; clear P.
  all: unfold SetName, SetStructShape, AppendRows, DeleteRowsAll, SetCellToZeroValue,
    SetColCellsToZeroValue, SetColCellsToZeroValueByColIndex, SetRowFloatCellsToNaN, SetAllFloatCellsToNaN, SetColFloatCellsToNaN,
    SetColFloatCellsToNaNByColIndex, SetFloatCellToNaN, Reverse, Shuffle.
  all: kpt.
Qed.
Lemma cut_skeys E o : cuts o = true -> kp skeys (exec E o).
Proof.
  destruct o; intros C; try discriminate; cbn [exec];
    unfold DeleteCol, RenameColByColIndex, DeleteColByColIndex, RenameCol; kpt.
Qed.

(** ---------- on the heap ---------- *)

Definition hs (h h' : heap) : Prop :=
  List.length h <= List.length h'
  /\ (forall q, q < List.length h -> step (tab h q) (tab h' q))
  /\ (forall q, List.length h <= q -> keys_ok (tab h' q)).
Lemma tab_out h q : List.length h <= q -> tab h q = NewNilTable.
Proof. intros L. unfold tab. now apply nth_overflow. Qed.
Lemma hs_refl h : hs h h.
Proof. split; [auto|]. split; [intros; apply step_refl|]. intros q L. rewrite tab_out by auto. now apply keys_ok_nil. Qed.
Lemma hs_trans h1 h2 h3 : hs h1 h2 -> hs h2 h3 -> hs h1 h3.
Proof.
  intros (L1 & S1 & K1) (L2 & S2 & K2). split; [lia|]. split.
  - intros q L. eapply step_trans; [apply S1; auto|apply S2; lia].
  - intros q L. destruct (Nat.lt_ge_cases q (List.length h2)); [|apply K2; auto].
    apply (keys_ok_step (tab h2 q)); [apply K1; auto|apply S2; auto].
Qed.
Lemma tab_app h l q : List.length h <= q -> keys_ok (tab l (q - List.length h)) -> keys_ok (tab (h ++ l) q).
Proof. intros L. unfold tab. now rewrite app_nth2 by lia. Qed.
Lemma nils_keys p l q : keys_ok (tab (new_nils p l) q).
Proof.
  apply keys_ok_nil. unfold tab, new_nils. destruct (nth_in_or_default q (map (fun b : bool => with_parent (if b then Some p else None) NewNilTable) l) NewNilTable) as [I| ->]; auto.
  apply in_map_iff in I as (b & <- & _). reflexivity.
Qed.
Lemma hs_on_heap_step {A} p (m : M A) h : 
  (forall t, nth_error h p = Some t -> step t (s_tab (fst (m (mkS t (List.length h) []))))) -> hs h (fst (on_heap p m h)).
Proof.
  intros ST. split; [apply on_heap_len|]. split.
  - intros q L. destruct (Nat.eq_dec q p) as [->|N].
    + destruct (nth_error_lt h p L) as [t Hp]. destruct (on_heap_self p m h t Hp) as [H _].
      unfold tab. rewrite (nth_error_nth _ _ _ H), (nth_error_nth _ _ _ Hp). auto.
    + rewrite (tab_eq h (fst (on_heap p m h)) q); [apply step_refl|]. now apply on_heap_frame.
  - intros q L. unfold on_heap. destruct (nth_error h p); [|rewrite tab_out by auto; now apply keys_ok_nil].
    destruct (m _) as [s r]. cbn [fst]. apply tab_app; [now rewrite upd_length|]. apply nils_keys.
Qed.
Lemma hs_on_heap {A} p (m : M A) h : wf_heap h -> kr (List.length h) m -> hs h (fst (on_heap p m h)).
Proof.
  intros WH K. apply hs_on_heap_step. intros t Hp. destruct (K (mkS t (List.length h) []) eq_refl) as (_ & _ & S); auto.
  destruct (tab_wf h p WH) as [W P]. unfold tab in *. rewrite (nth_error_nth _ _ _ Hp) in *.
  split; [exact W|]. unfold next. cbn. now rewrite Nat.add_0_r.
Qed.
Lemma hs_on_heap_hk {A} p (m : M A) h : kp hk m -> hs h (fst (on_heap p m h)).
Proof. intros K. apply hs_on_heap_step. intros t _. apply step_same. apply (K (mkS t (List.length h) [])). Qed.
Lemma hs_new_tab m h : (forall s u, m (mkS NewNilTable (S (List.length h)) []) = (s, Ok u) -> keys_ok (s_tab s)) -> hs h (fst (new_tab m h)).
Proof.
  intros K. unfold new_tab. destruct (m _) as [s [u| |]]; cbn [fst]; try apply hs_refl. specialize (K s u eq_refl).
  split; [rewrite app_length; lia|]. split.
  - intros q L. unfold tab. rewrite app_nth1 by auto. apply step_refl.
  - intros q L. apply tab_app; auto. unfold tab. destruct (q - List.length h); [exact K|]. apply nils_keys.
Qed.
Lemma hs_new_tab_sk m h : kp skeys m -> hs h (fst (new_tab m h)).
Proof.
  intros K. apply hs_new_tab. intros s u E. specialize (K (mkS NewNilTable (S (List.length h)) [])). rewrite E in K.
  now apply keys_ok_nil.
Qed.
Lemma hs_set_parent h q p : hs h (set_parent q p h).
Proof.
  split; [rewrite set_parent_len; auto|]. split.
  - intros z L. destruct (Nat.eq_dec z q) as [->|N].
    + unfold set_parent, tab at 2. destruct (nth_error_lt h q L) as [t H].
      rewrite (nth_error_nth _ _ _ (nth_error_upd_eq _ _ _ L)). now apply step_same.
    + rewrite (tab_eq h (set_parent q p h) z); [apply step_refl|]. now apply set_parent_frame.
  - intros z L. rewrite tab_out by (rewrite set_parent_len; auto). now apply keys_ok_nil.
Qed.
Lemma hs_new_val r h : (forall t, r = Ok t -> keys_ok t) -> hs h (fst (new_val r h)).
Proof.
  intros K. destruct r as [t| |]; cbn [new_val fst]; try apply hs_refl. split; [rewrite app_length; lia|]. split.
  - intros q L. unfold tab. rewrite app_nth1 by auto. apply step_refl.
  - intros q L. apply tab_app; auto. unfold tab. destruct (q - List.length h) as [|[|n]]; [now apply K|now apply keys_ok_nil..].
Qed.
Lemma sk_build m b t : kp skeys m -> build m b = Ok t -> skeys t = [].
Proof.
  intros K H. unfold build, run in H. specialize (K (mkS NewNilTable b [])). destruct (m _) as [s [u| |]]; try discriminate.
  injection H as <-. exact K.
Qed.
Lemma colinfo_keys t t' : GetColInfoAsTable t = Ok t' -> skeys t' = [].
Proof.
  unfold GetColInfoAsTable. destruct (is_nil t); [discriminate|]. apply sk_build.
  unfold SetName. kpt.
Qed.
Lemma keytab_keys t t' : GetSortKeysAsTable t = Ok t' -> skeys t' = [].
Proof.
  unfold GetSortKeysAsTable. destruct (NewTable "SortKeys") as [kt| |] eqn:EN; simpl; try discriminate.
  vm_compute in EN. injection EN as <-.
  match goal with |- (match run ?m _ ?t0 with _ => _ end) = _ -> _ => assert (K : kp skeys m) by kpt; revert K; generalize m end.
  intros m K. unfold run. specialize (K (mkS {| tname := "SortKeys"; cnames := []; ctypes := []; cmap := []; rows := []; skeys := []; struct_shape := false; is_nil := false; parent := None |} 0 [])).
  destruct (m _) as [s [u| |]]; try discriminate. intros H. injection H as <-. exact K.
Qed.

(** ---------- Merge ---------- *)

Definition kz (b : nat) {A} (m : M A) : Prop :=
  forall s s' a, s_base s = b -> good s -> m s = (s', Ok a) -> keys_ok (s_tab s').
Lemma kz_bind_r b {A C} (m : M A) (f : A -> M C) : pres b m -> (forall a, kz b (f a)) -> kz b (bind m f).
Proof.
  intros P K s s' c Hb G. unfold bind. destruct (P s Hb G) as (G1 & B1 & _). destruct (m s) as [s1 [a| |]]; simpl in *; try discriminate.
  apply K; auto. congruence.
Qed.
Lemma kz_bind_l b {A C} (m : M A) (f : A -> M C) : pres b m -> kz b m -> (forall a, kr b (f a)) -> kz b (bind m f).
Proof.
  intros P K KR s s' c Hb G. unfold bind. destruct (P s Hb G) as (G1 & B1 & _). specialize (K s). destruct (m s) as [s1 [a| |]]; simpl in *; try discriminate.
  intros E. destruct (KR a s1 ltac:(congruence) G1) as (_ & _ & S). rewrite E in S. eapply keys_ok_step; eauto.
Qed.
Lemma kz_SetSortKeys b cns : kz b (SetSortKeys cns).
Proof.
  intros s s' a Hb G E. unfold SetSortKeys, bind, modify in E.
  assert (G1 : good (on_tab (with_skeys []) s)) by (apply (pres_skeys_const b [] s Hb G)).
  destruct (kr_mfor b cns AppendSortKey (kr_AppendSortKey b) (on_tab (with_skeys []) s) Hb G1) as (_ & _ & S).
  rewrite E in S. eapply keys_ok_step; [|exact S]. now apply keys_ok_nil.
Qed.
Lemma kz_SetSortKeysFromTable b t : kz b (SetSortKeysFromTable t).
Proof.
  unfold SetSortKeysFromTable. apply kz_bind_r; [auto with pres|intros _]. apply kz_bind_r; [auto with pres|intros p].
  apply kz_bind_l; [auto with pres|apply kz_SetSortKeys|intros _; apply kr_SetSortKeysReverse].
Qed.
Lemma kz_merge_body b E t1 t2 : env_ok E -> wf_table t1 -> wf_table t2 -> ptrs_lt b t1 -> ptrs_lt b t2 -> kz b (merge_body E t1 t2).
Proof.
  intros EO W1 W2 P1 P2. unfold merge_body.
  do 25 (apply kz_bind_r; [repeat first [ solve [auto using pres_copyTableCells, pres_Sort, pres_merge_row, pres_SetT_int with pres]
    | match goal with
      | |- pres _ (bind _ _) => apply pres_bind; [|intros ?]
      | |- pres _ (mfor _ _) => apply pres_mfor; intros ? ?
      end ]|intros ?]).
  apply kz_bind_l; [auto with pres|apply kz_SetSortKeysFromTable|intros _; now apply kr_Sort].
Qed.

Lemma hs_setSortKeys p1 p2 h : wf_heap h -> hs h (fst (setSortKeysBetweenTables p1 p2 h)).
Proof.
  intros WH. unfold setSortKeysBetweenTables. destruct (_ >? 0)%Z; [|destruct (_ >? 0)%Z; [|apply hs_refl]]; apply hs_on_heap; auto; apply kr_SetSortKeysFromTable.
Qed.
Lemma hs_sortMerged E p1 p2 p h : env_ok E -> wf_heap h -> hs h (fst (sortMerged E p1 p2 p h)).
Proof.
  intros EO WH. unfold sortMerged.
  assert (C : hs h (fst (if (SortKeyCount (tab h p) =? 0)%Z then setSortKeysBetweenTables p1 p2 h else (h, Ok tt)))
              /\ wf_heap (fst (if (SortKeyCount (tab h p) =? 0)%Z then setSortKeysBetweenTables p1 p2 h else (h, Ok tt)))).
  { destruct (_ =? 0)%Z; [|split; auto; apply hs_refl]. split; [now apply hs_setSortKeys|now apply setSortKeysBetween_wf]. }
  destruct C as [C WC]. destruct (if (SortKeyCount (tab h p) =? 0)%Z then setSortKeysBetweenTables p1 p2 h else (h, Ok tt)) as [h1 [u| |]]; simpl in *; auto.
  eapply hs_trans; [exact C|]. apply hs_on_heap; auto. now apply kr_Sort.
Qed.
Lemma hs_Merge E p1 p2 h : env_ok E -> wf_heap h -> hs h (fst (Merge E p1 p2 h)).
Proof.
  intros EO WH. unfold Merge. destruct (RowCount (tab h p1) =? 0)%Z; [|destruct (RowCount (tab h p2) =? 0)%Z].
  - pose proof (hs_sortMerged E p1 p2 p2 h EO WH) as C. destruct (sortMerged E p1 p2 p2 h) as [h1 r]. exact C.
  - pose proof (hs_sortMerged E p1 p2 p1 h EO WH) as C. destruct (sortMerged E p1 p2 p1 h) as [h1 r]. exact C.
  - pose proof (hs_setSortKeys p1 p2 h WH) as C. destruct (setSortKeysBetween_wf p1 p2 h WH) as [WC _].
    destruct (setSortKeysBetweenTables p1 p2 h) as [h1 [u| |]]; simpl in *; auto.
    eapply hs_trans; [exact C|]. apply hs_new_tab. intros s a EM.
    destruct (tab_wf h1 p1 WC) as [W1 P1], (tab_wf h1 p2 WC) as [W2 P2].
    eapply (kz_merge_body (S (List.length h1)) E (tab h1 p1) (tab h1 p2)); eauto using ptrs_S; [reflexivity|].
    split; [apply wf_nil_table|constructor].
Qed.
Lemma hs_SortUnique E p cols h : env_ok E -> wf_heap h -> hs h (fst (SortUnique E p cols h)).
Proof.
  intros EO WH. unfold SortUnique.
  assert (C : hs h (fst (if Nat.ltb 0 (List.length cols) then on_heap p (SetSortKeys cols) h else (h, Ok tt)))
    /\ wf_heap (fst (if Nat.ltb 0 (List.length cols) then on_heap p (SetSortKeys cols) h else (h, Ok tt)))).
  { destruct (Nat.ltb 0 (List.length cols)); [|split; auto; apply hs_refl].
    split; [apply hs_on_heap; auto; apply kr_SetSortKeys|]. apply on_heap_wf; auto with pres. }
  destruct C as [C WC].
  destruct (if Nat.ltb 0 (List.length cols) then on_heap p (SetSortKeys cols) h else (h, Ok tt)) as [h1 [u| |]]; simpl in *; auto.
  destruct (Nat.eqb (List.length (skeys (tab h1 p))) 0); auto.
  pose proof (hs_Merge E p p h1 EO WC) as C2. destruct (Merge E p p h1) as [h2 r2]. simpl in C2. pose proof (hs_trans _ _ _ C C2) as C3.
  destruct r2 as [q| |]; auto.
  assert (CN : hs h2 (fst (on_heap q (SetName (tname (tab h2 p))) h2))) by (apply hs_on_heap_hk; unfold SetName; kpt).
  destruct (on_heap q (SetName (tname (tab h2 p))) h2) as [h3 r3]. simpl in *. eapply hs_trans; eauto.
Qed.

(** ---------- CopyDeep ---------- *)

Definition wks {X A} (m : W X A) : Prop := forall s, hs (w_heap s) (w_heap (fst (m s))).
Lemma wks_same {X A} (m : W X A) : (forall s, w_heap (fst (m s)) = w_heap s) -> wks m.
Proof. intros H s. rewrite H. apply hs_refl. Qed.
Lemma wks_bind {X A B} (m : W X A) (f : A -> W X B) : wks m -> (forall x, wks (f x)) -> wks (wbind m f).
Proof.
  intros Hm Hf s. unfold wbind. specialize (Hm s). destruct (m s) as [s1 [x| |]]; simpl in *; auto.
  eapply hs_trans; [apply Hm|apply Hf].
Qed.
Lemma wks_wfor {X A} (l : list A) (body : A -> W X unit) : (forall x, wks (body x)) -> wks (wfor l body).
Proof. intros H. induction l; simpl; [apply wks_same; auto|]. apply wks_bind; auto. Qed.
Lemma wks_wheap {X A} (f : heap -> heap * res A) : (forall h, hs h (fst (f h))) -> wks (@wheap X A f).
Proof. intros H s. unfold wheap. specialize (H (w_heap s)). destruct (f (w_heap s)); auto. Qed.
Lemma wks_Walk {X} nested (vT : ptr -> W X unit) vR vC fuel :
  (forall p, wks (vT p)) -> (forall p ri, wks (vR p ri)) -> (forall i, wks (vC i)) ->
  forall p, wks (Walk fuel nested vT vR vC p).
Proof.
  intros HT HR HC. assert (WT : forall p, wks (@wtab X p)) by (intros; apply wks_same; auto).
  assert (WL : forall A (r : res A), wks (@wlift X A r)) by (intros; apply wks_same; auto).
  induction fuel as [|fuel IH]; intros p; cbn [Walk]; [apply WL|].
  apply wks_bind; [apply HT|intros _]. apply wks_bind; [apply WT|intros t].
  apply wks_wfor. intros ri. apply wks_bind; [apply HR|intros _]. apply wks_bind; [apply WT|intros t'].
  apply wks_wfor. intros ci. apply wks_bind; [apply WT|intros t'']. apply wks_bind; [apply WL|intros info].
  apply wks_bind; [apply HC|intros _]. destruct (nested && (ci_type info =? "*Table")); [|apply wks_same; auto].
  apply wks_bind; [apply WT|intros t3]. apply wks_bind; [apply WL|intros [q|]]; [|apply WL].
  apply wks_bind; [apply WT|intros t4]. apply wks_bind; [|intros; apply IH].
  destruct (is_nil t4); [apply wks_same; auto|]. apply wks_same. intros s. destruct (in_set q (w_safe s)); reflexivity.
Qed.
Lemma hs_Copy p h : hs h (fst (Copy p h)).
Proof.
  unfold Copy. destruct (HasCircularReference h p) as [[]| |]; try apply hs_refl. apply hs_new_tab_sk.
  unfold Copy_body, SetName. kpt.
Qed.
Lemma hs_CopyCols p h : hs h (fst (CopyCols p h)).
Proof.
  unfold CopyCols. destruct (HasCircularReference h p) as [[]| |]; try apply hs_refl. apply hs_new_tab_sk.
  unfold CopyCols_body, SetName. kpt.
Qed.
Lemma hs_CopyDeep fuel p h : hs h (fst (CopyDeep fuel p h)).
Proof.
  unfold CopyDeep.
  assert (K : wks (Walk fuel true (fun _ => wret tt) (fun _ _ => wret tt) copydeep_visit p)).
  { apply wks_Walk; try (intros; apply wks_same; auto; fail). intros i. unfold copydeep_visit.
    assert (WT : forall p, wks (@wtab ptr p)) by (intros; apply wks_same; auto).
    assert (WL : forall A (r : res A), wks (@wlift ptr A r)) by (intros; apply wks_same; auto).
    apply wks_bind; [|intros; apply wks_same; auto]. destruct (ci_type i =? "*Table"); [|apply wks_same; auto].
    apply wks_bind; [apply WT|intros t]. apply wks_bind; [apply WL|intros [q|]]; [|apply WL].
    apply wks_bind; [apply WT|intros tq]. apply wks_bind.
    - destruct (is_nil tq); apply wks_wheap; intros; [apply hs_new_tab_sk; kpt|apply hs_Copy].
    - intros q'. apply wks_wheap. intros h'. unfold SetTableByColIndex. eapply hs_trans.
      + apply hs_set_parent.
      + apply hs_on_heap_hk. kpt. }
  specialize (K (mkW h [] p)). simpl in K.
  destruct (Walk fuel true (fun _ => wret tt) (fun _ _ => wret tt) copydeep_visit p (mkW h [] p)) as [s [u| |]]; exact K.
Qed.

Definition hcuts (c : hop) : bool := match c with HTab (Some _) o => cuts o | _ => false end.
Theorem hexec_hs E c h : env_ok E -> wf_heap h -> hop_typed h c = true -> hcuts c = false -> hs h (fst (hexec E c h)).
Proof.
  intros EO WH T D. destruct c as [[p|] o|n| |n cns cts|[p|] [q|] f l|[p|] [q|]|[p|] [q|]|[q|] n f l|[q|] n vs|[q|] ns|[q|] order|[q|]|[q|]|[q|]|[q|]|[p1|] [p2|]|[p|] cols|fuel [p|]];
    try (apply hs_refl).
  - cbn [hop_typed] in T. apply andb_true_iff in T as [_ T]. cbn [hcuts] in D.
    assert (G : forall q (m : M unit), kp hk m -> hs h (fst (on_heap p m (set_parent q p h)))).
    { intros q m K. eapply hs_trans; [apply hs_set_parent|now apply hs_on_heap_hk]. }
    pose proof (hs_on_heap p (exec E o) h WH (kr_exec (List.length h) E o EO T D)) as G1.
    destruct o; try exact G1;
    (destruct v as [| | | | | | |[z|]| |]; try exact G1; apply G; kpt).
  - apply hs_new_tab_sk. unfold SetName. kpt.
  - apply hs_new_tab_sk. kpt.
  - apply hs_new_tab_sk. unfold SetName, appendCols. kpt.
  - apply (hs_on_heap_hk p). kpt.
  - rewrite hexec_appcols. pose proof (kr_AppendColsFromTable (List.length h) (seen_from h p q)) as K. revert K.
    generalize (AppendColsFromTable (seen_from h p q)). intros m K. unfold nothing. cbn [fst]. now apply hs_on_heap.
  - apply (hs_on_heap p (SetSortKeysFromTable (tab h q)) h WH). apply kr_SetSortKeysFromTable.
  - apply hs_new_tab_sk. unfold NewTableFromRows, SetName. kpt.
  - apply hs_new_tab_sk. unfold NewTableFromRowsBySearchRange, NewTableFromRows, SetName. kpt.
  - apply hs_new_tab_sk. unfold NewTableReorderCols, NewTableReorderColsByColIndex, SetName, AppendRows. kpt.
  - apply hs_new_tab_sk. unfold NewTableReorderColsByColIndex, SetName, AppendRows. kpt.
  - apply (hs_new_val (GetColInfoAsTable (tab h q)) h). intros t E0. apply keys_ok_nil. eapply colinfo_keys; eauto.
  - rewrite hexec_keys. pose proof (keytab_keys (tab h q)) as K. revert K. generalize (GetSortKeysAsTable (tab h q)). intros r K.
    apply (hs_new_val r h). intros t E0. apply keys_ok_nil. eapply K; eauto.
  - apply hs_Copy.
  - apply hs_CopyCols.
  - now apply hs_Merge.
  - now apply hs_SortUnique.
  - apply hs_CopyDeep.
Qed.

(** ---------- deleting and renaming columns ---------- *)

Lemma In_remove_both {A B} (l : list A) (l' : list B) c i x y : nth_error l i = Some x -> nth_error l' i = Some y -> i <> c ->
  exists j, nth_error (remove_at c l) j = Some x /\ nth_error (remove_at c l') j = Some y.
Proof.
  revert l' c i. induction l as [|a l IH]; intros l' c i A1 B1 N; [destruct i; discriminate|].
  destruct l' as [|b l']; [destruct i; discriminate|]. destruct i as [|i], c as [|c]; simpl in *; try congruence.
  - exists 0. auto.
  - exists i. auto.
  - destruct (IH l' c i A1 B1 ltac:(congruence)) as (j & A2 & B2). exists (S j). auto.
Qed.
Lemma deleted_keys c s : wf_table (s_tab s) -> keys_ok (s_tab s) ->
  (forall cn, nth_error (cnames (s_tab s)) c = Some cn -> ~ In cn (map k_col (skeys (s_tab s)))) -> keys_ok (s_tab (col_deleted c s)).
Proof.
  intros W K N. rewrite keys_ok_iff in *. cbn [col_deleted s_tab skeys]. intros k I. destruct (K k I) as ((i & A & B) & S).
  split; auto. unfold has_col. cbn [cnames ctypes]. destruct (In_remove_both _ _ c i _ _ A B) as (j & A2 & B2); [|now exists j].
  intros ->. apply (N _ A). now apply in_map.
Qed.
Lemma renamed_keys i old new s : keys_ok (s_tab s) -> nth_error (cnames (s_tab s)) i = Some old ->
  ~ In old (map k_col (skeys (s_tab s))) -> keys_ok (s_tab (col_renamed i old new s)).
Proof.
  intros K O N. rewrite keys_ok_iff in *. cbn [col_renamed on_tab s_tab with_cols skeys]. intros k I. destruct (K k I) as ((j & A & B) & S).
  split; auto. exists j. unfold col_renamed. cbn [on_tab s_tab with_cols cnames ctypes]. split; auto. rewrite nth_error_upd_ne; auto.
  intros <-. apply N. rewrite O in A. injection A as ->. now apply in_map.
Qed.
Lemma DeleteColByColIndex_keys ci s : wf_table (s_tab s) -> keys_ok (s_tab s) ->
  (forall cn, ColName (s_tab s) ci = Ok cn -> ~ In cn (map k_col (skeys (s_tab s)))) -> keys_ok (s_tab (fst (DeleteColByColIndex ci s))).
Proof.
  intros W K N. rewrite DeleteColByColIndex_eq. destruct (HasColByColIndex (s_tab s) ci) eqn:HC; auto. cbn [fst].
  apply deleted_keys; auto. intros cn A. apply N. rewrite ColName_eq, HC. now rewrite (nth_error_nth _ _ _ A).
Qed.
Lemma RenameCol_keys old new s : wf_table (s_tab s) -> keys_ok (s_tab s) ->
  ~ In old (map k_col (skeys (s_tab s))) -> keys_ok (s_tab (fst (RenameCol old new s))).
Proof.
  intros W K N. destruct (RenameCol_eq old new s W) as [(i & A & _ & _ & ->)|[_ ->]]; auto. now apply renamed_keys.
Qed.
Lemma cut_keys E o s : wf_table (s_tab s) -> keys_ok (s_tab s) -> cuts o = true ->
  (forall h p, tab h p = s_tab s -> ~ spoils_key h (HTab (Some p) o)) -> keys_ok (s_tab (fst (exec E o s))).
Proof.
  intros W K C N. specialize (N [s_tab s] 0 eq_refl). destruct o; try discriminate; cbn [exec spoils_key] in *; change (tab [s_tab s] 0) with (s_tab s) in N.
  - unfold DeleteCol. mstep. destruct (ColIndex_cases (s_tab s) cn W) as [(i & A & ->)|[_ ->]]; auto. mstep.
    apply DeleteColByColIndex_keys; auto. intros cn' E1. rewrite ColName_eq in E1. destruct (HasColByColIndex _ _); [|discriminate].
    rewrite Nat2Z.id, (nth_error_nth _ _ _ A) in E1. now injection E1 as <-.
  - apply DeleteColByColIndex_keys; auto. intros cn E1 I. apply N. now exists cn.
  - now apply RenameCol_keys.
  - unfold RenameColByColIndex. mstep. destruct (ColName (s_tab s) ci) as [cn| |] eqn:E1; auto. mstep. apply RenameCol_keys; auto.
    intros I. apply N. now exists cn.
Qed.

(** ---------- histories ---------- *)

Definition all_keys (P : table -> Prop) (h : heap) : Prop := forall q, P (tab h q).
Lemma hs_keys h h' : hs h h' -> all_keys keys_ok h -> all_keys keys_ok h'.
Proof.
  intros (L & S & K) A q. destruct (Nat.lt_ge_cases q (List.length h)); [|auto]. apply (keys_ok_step (tab h q)); auto.
Qed.
Lemma hs_valid h h' : wf_heap h' -> hs h h' -> all_keys keys_valid h -> all_keys keys_valid h'.
Proof.
  intros WH (L & S & K) A q. unfold keys_valid in *. apply Forall_forall. intros k I. destruct (tab_wf h' q WH) as [W _].
  assert (OK : forall k, key_ok (tab h' q) k -> valid_name (k_col k) /\ In (k_type k) sortable_types).
  { intros k' ((i & B & _) & O). split; auto. pose proof (wf_colnames _ W) as V. apply (Forall_nth_error _ _ _ _ V B). }
  destruct (Nat.lt_ge_cases q (List.length h)) as [Lq|Lq].
  - destruct (S q Lq) as [S1 _]. destruct (S1 k I) as [(k0 & I0 & B & C)|O]; auto.
    specialize (A q). rewrite Forall_forall in A. specialize (A k0 I0). rewrite B, C in A. exact A.
  - specialize (K q Lq). rewrite keys_ok_iff in K. auto.
Qed.

(** A cutting call changes only its receiver. *)
Lemma cut_frame E p o h : cuts o = true -> hexec E (HTab (Some p) o) h = nothing (on_heap p (exec E o) h).
Proof. destruct o; intros C; try discriminate; reflexivity. Qed.
Lemma cut_all (P : table -> Prop) E p o h : cuts o = true -> all_keys P h -> (forall t, skeys t = [] -> P t) ->
  (forall t, nth_error h p = Some t -> P (s_tab (fst (exec E o (mkS t (List.length h) []))))) ->
  all_keys P (fst (hexec E (HTab (Some p) o) h)).
Proof.
  intros C A N H q. rewrite cut_frame by auto. unfold nothing. cbn [fst].
  destruct (Nat.eq_dec q p) as [->|NE].
  - destruct (nth_error h p) as [t|] eqn:Hp.
    + destruct (on_heap_self p (exec E o) h t Hp) as [S _]. unfold tab. rewrite (nth_error_nth _ _ _ S). auto.
    + unfold on_heap. rewrite Hp. apply A.
  - destruct (Nat.lt_ge_cases q (List.length h)) as [Lq|Lq].
    + rewrite (tab_eq h); auto. now apply on_heap_frame.
    + apply N. unfold on_heap. destruct (nth_error h p); [|now rewrite tab_out].
      destruct (exec E o _) as [s r]. cbn [fst]. unfold tab. rewrite app_nth2 by (rewrite upd_length; lia).
      unfold new_nils. match goal with |- context [nth ?i (map ?f ?l) ?d] => destruct (nth_in_or_default i (map f l) d) as [I| ->]; auto end.
      apply in_map_iff in I as (b & <- & _). reflexivity.
Qed.

Theorem careful_keys E h : env_ok E -> reachable_careful E h -> wf_heap h /\ all_keys keys_ok h.
Proof.
  intros EO R. induction R as [|h c R [WH A] T NS]; [split; [apply wf_heap_nil|intros q; rewrite tab_out by (simpl; lia); now apply keys_ok_nil]|].
  split; [now apply hexec_wf|]. destruct (hcuts c) eqn:HC.
  - destruct c as [[p|] o| | | | | | | | | | | | | | | | |]; try discriminate. cbn [hcuts] in HC.
    apply cut_all; auto using keys_ok_nil. intros t Hp. destruct (tab_wf h p WH) as [W _].
    assert (TE : tab h p = t) by (unfold tab; now rewrite (nth_error_nth _ _ _ Hp)).
    apply cut_keys; cbn [s_tab]; auto; [now rewrite <- TE|rewrite <- TE; apply A|].
    intros h2 p2 E2 SP. apply NS. destruct o; try discriminate; cbn [spoils_key] in *; now rewrite TE, <- E2.
  - eapply hs_keys; [now apply hexec_hs|auto].
Qed.

Theorem reachable_keys_valid E h : env_ok E -> reachable E h -> all_keys keys_valid h.
Proof.
  intros EO R. induction R as [|h c R IH T]; [intros q; rewrite tab_out by (simpl; lia); constructor|].
  pose proof (reachable_wf E h EO R) as WH. destruct (hcuts c) eqn:HC.
  - destruct c as [[p|] o| | | | | | | | | | | | | | | | |]; try discriminate. cbn [hcuts] in HC.
    apply cut_all; auto; [intros t ET; unfold keys_valid; now rewrite ET|]. intros t Hp. unfold keys_valid. rewrite (cut_skeys E o HC). cbn [s_tab].
    specialize (IH p). unfold tab in IH. now rewrite (nth_error_nth _ _ _ Hp) in IH.
  - apply (hs_valid h); auto; [now apply hexec_wf|now apply hexec_hs].
Qed.
