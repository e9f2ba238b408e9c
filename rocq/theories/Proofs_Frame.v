(** Proofs_Frame.v -- what a call leaves alone: tables it does not mention, and names. *)
From Coq Require Import ZArith NArith List String Ascii Bool Permutation Lia.
From Verif Require Import Base Model_Names Model_Table Model_Sort Model_Copy Model_Merge Model_Ops Model_Heap.
From Verif Require Import Spec Spec_Sort Spec_Heap Spec_Frame.
From Verif Require Import Proofs_Lib Proofs_Table Proofs_Cells Proofs_Struct Proofs_Api Proofs_Pres Proofs_Heap.
Import ListNotations.
Local Open Scope string_scope.
Local Open Scope list_scope.

(** ---------- methods that keep the name ---------- *)

Definition kn {A} (m : M A) : Prop := forall s, tname (s_tab (fst (m s))) = tname (s_tab s).
Lemma kn_id {A} (m : M A) : (forall s, s_tab (fst (m s)) = s_tab s) -> kn m.
Proof. intros H s. now rewrite H. Qed.
Lemma kn_bind {A B} (m : M A) (f : A -> M B) : kn m -> (forall a, kn (f a)) -> kn (bind m f).
Proof. intros H1 H2 s. unfold bind. specialize (H1 s). destruct (m s) as [s' [a| |]]; simpl in *; auto. now rewrite H2. Qed.
Lemma kn_mfor {A} (l : list A) body : (forall x, kn (body x)) -> kn (mfor l body).
Proof. intros H. induction l; simpl; [now apply kn_id|]. now apply kn_bind. Qed.
Lemma kn_set_cell ci ri v : kn (set_cell ci ri v).
Proof.
  intros s. unfold set_cell. destruct (zidx ri _); auto. destruct (nth_error _ _); auto. destruct (zidx ci _); auto.
Qed.
Lemma kn_modify f : (forall t, tname (f t) = tname t) -> kn (modify f).
Proof. intros H s. simpl. apply H. Qed.
Lemma kn_on_err {A} (m k : M A) : kn m -> kn k -> kn (on_err m k).
Proof. intros H1 H2 s. unfold on_err. specialize (H1 s). destruct (m s) as [s' [a| |]]; simpl in *; auto. now rewrite H2. Qed.

Create HintDb kn.
Ltac knt := repeat first
  [ assumption
  | progress cbv zeta
  | solve [auto 2 with kn nocore]
  | apply kn_set_cell
  | apply kn_bind; [|intros ?]
  | apply kn_mfor; intros ?
  | apply kn_on_err
  | apply kn_modify; intros ?; reflexivity
  | apply kn_id; intros ?; reflexivity
  | match goal with
    | |- kn (if ?c then _ else _) => destruct c
    | |- kn (match ?c with _ => _ end) => destruct c
    | |- kn (check ?c) => destruct c
    end
  ].

Lemma kn_SetT vt cn ri v : kn (SetT vt cn ri v). Proof. unfold SetT. knt. Qed.
#[export] Hint Resolve kn_SetT : kn.
Lemma kn_SetTByColIndex vt ci ri v : kn (SetTByColIndex vt ci ri v). Proof. unfold SetTByColIndex. knt. Qed.
#[export] Hint Resolve kn_SetTByColIndex : kn.
Lemma kn_SetValByColIndex ci ri v : kn (SetValByColIndex ci ri v). Proof. unfold SetValByColIndex. knt. Qed.
#[export] Hint Resolve kn_SetValByColIndex : kn.
Lemma kn_SetVal cn ri v : kn (SetVal cn ri v). Proof. unfold SetVal. knt. Qed.
#[export] Hint Resolve kn_SetVal : kn.
Lemma kn_zero_val b ct : kn (zero_val b ct). Proof. unfold zero_val, alloc. knt. Qed.
#[export] Hint Resolve kn_zero_val : kn.
Lemma kn_SetCellZ ci ri : kn (SetCellToZeroValueByColIndex ci ri).
Proof. unfold SetCellToZeroValueByColIndex. knt. Qed.
#[export] Hint Resolve kn_SetCellZ : kn.
Lemma kn_SetRowZ ri : kn (SetRowCellsToZeroValue ri).
Proof. unfold SetRowCellsToZeroValue. knt. Qed.
#[export] Hint Resolve kn_SetRowZ : kn.
Lemma kn_AppendSortKey cn : kn (AppendSortKey cn). Proof. unfold AppendSortKey. knt. Qed.
#[export] Hint Resolve kn_AppendSortKey : kn.
Lemma kn_SetSortKeys cns : kn (SetSortKeys cns). Proof. unfold SetSortKeys. knt. Qed.
#[export] Hint Resolve kn_SetSortKeys : kn.
Lemma kn_setSortKeyReverse cn : kn (setSortKeyReverse cn). Proof. unfold setSortKeyReverse. knt. Qed.
#[export] Hint Resolve kn_setSortKeyReverse : kn.
Lemma kn_SetSortKeysReverse cns : kn (SetSortKeysReverse cns). Proof. unfold SetSortKeysReverse. knt. Qed.
#[export] Hint Resolve kn_SetSortKeysReverse : kn.
Lemma kn_sortByKeys E : kn (sortByKeys E).
Proof. unfold sortByKeys. knt. Qed.
#[export] Hint Resolve kn_sortByKeys : kn.
Lemma kn_Sort E cns : kn (Sort E cns).
Proof. unfold Sort. knt. Qed.
#[export] Hint Resolve kn_Sort : kn.
Lemma kn_SortSimple E cns : kn (SortSimple E cns).
Proof. unfold SortSimple. knt. Qed.
#[export] Hint Resolve kn_SortSimple : kn.
Lemma kn_ReorderColsByColIndex o : kn (ReorderColsByColIndex o). Proof. unfold ReorderColsByColIndex. knt. Qed.
#[export] Hint Resolve kn_ReorderColsByColIndex : kn.
Lemma kn_ReorderCols o : kn (ReorderCols o). Proof. unfold ReorderCols. knt. Qed.
#[export] Hint Resolve kn_ReorderCols : kn.
Lemma kn_DeleteRows a b : kn (DeleteRows a b). Proof. unfold DeleteRows. knt. Qed.
#[export] Hint Resolve kn_DeleteRows : kn.
Lemma kn_AppendRow : kn AppendRow. Proof. unfold AppendRow. knt. Qed.
#[export] Hint Resolve kn_AppendRow : kn.
Lemma kn_AppendCol cn ct : kn (AppendCol cn ct).
Proof. unfold AppendCol. knt. Qed.
#[export] Hint Resolve kn_AppendCol : kn.
Lemma kn_DeleteColByColIndex ci : kn (DeleteColByColIndex ci). Proof. unfold DeleteColByColIndex. knt. Qed.
#[export] Hint Resolve kn_DeleteColByColIndex : kn.
Lemma kn_RenameCol a b : kn (RenameCol a b). Proof. unfold RenameCol. knt. Qed.
#[export] Hint Resolve kn_RenameCol : kn.
Lemma kn_FloatNaN ci ri : kn (SetFloatCellToNaNByColIndex ci ri). Proof. unfold SetFloatCellToNaNByColIndex. knt. Qed.
#[export] Hint Resolve kn_FloatNaN : kn.

Lemma kn_DeleteRow i : kn (DeleteRow i).
Proof.
  unfold DeleteRow. apply kn_bind; [knt|intros t]. apply kn_bind; [knt|intros _]. intros s. pose proof (kn_DeleteRows i i s) as K.
  destruct (DeleteRows i i s) as [s' [| |]]; simpl in *; auto.
Qed.
#[export] Hint Resolve kn_DeleteRow : kn.

Lemma kn_exec E o : (forall n, o <> OSetName n) -> kn (exec E o).
Proof.
  intros H. destruct o; cbn [exec]; try (exfalso; eapply H; reflexivity); try solve [auto 2 with kn nocore].
  all: unfold SetStructShape, AppendRows, DeleteRowsAll, DeleteCol, RenameColByColIndex, SetCellToZeroValue,
    SetColCellsToZeroValue, SetColCellsToZeroValueByColIndex, SetRowFloatCellsToNaN, SetAllFloatCellsToNaN, SetColFloatCellsToNaN,
    SetColFloatCellsToNaNByColIndex, SetFloatCellToNaN, Reverse, Shuffle, DeleteSortKey, OrderColsBySortKeys.
  all: knt.
Qed.

Lemma kn_AppendColsFromTable src : kn (AppendColsFromTable src).
Proof. unfold AppendColsFromTable. knt. Qed.
Lemma kn_AppendRowsFromTable src f l : kn (AppendRowsFromTable src f l).
Proof. unfold AppendRowsFromTable. knt. Qed.
Lemma kn_SetSortKeysFromTable t : kn (SetSortKeysFromTable t).
Proof. unfold SetSortKeysFromTable. knt. Qed.

(** ---------- on the heap ---------- *)

Lemma nth_upd_other {A} (h : list A) p q x : p <> q -> nth_error (upd h p x) q = nth_error h q.
Proof. intros N. now apply nth_error_upd_ne. Qed.
Lemma nth_app_old {A} (h l : list A) q : q < List.length h -> nth_error (h ++ l) q = nth_error h q.
Proof. intros L. now rewrite nth_error_app1. Qed.
Lemma on_heap_frame {A} p (m : M A) h q : q < List.length h -> q <> p -> nth_error (fst (on_heap p m h)) q = nth_error h q.
Proof.
  intros L N. unfold on_heap. destruct (nth_error h p) as [t|]; auto. destruct (m _) as [s r]. simpl.
  rewrite nth_app_old by (rewrite upd_length; auto). apply nth_upd_other. congruence.
Qed.
Lemma on_heap_len {A} p (m : M A) h : List.length h <= List.length (fst (on_heap p m h)).
Proof.
  unfold on_heap. destruct (nth_error h p) as [t|]; auto. destruct (m _) as [s r]. simpl. rewrite app_length, upd_length. lia.
Qed.
Lemma on_heap_self {A} p (m : M A) h t : nth_error h p = Some t ->
  nth_error (fst (on_heap p m h)) p = Some (s_tab (fst (m (mkS t (List.length h) [])))) /\ snd (on_heap p m h) = snd (m (mkS t (List.length h) [])).
Proof.
  intros H. unfold on_heap. rewrite H. destruct (m _) as [s r]. simpl. split; auto.
  assert (p < List.length h) by (eapply nth_error_some_lt; eauto).
  rewrite nth_app_old by (rewrite upd_length; auto). now apply nth_error_upd_eq.
Qed.
Lemma new_tab_frame m h q : q < List.length h -> nth_error (fst (new_tab m h)) q = nth_error h q.
Proof. intros L. unfold new_tab. destruct (m _) as [s [u| |]]; simpl; auto. now apply nth_app_old. Qed.
Lemma new_tab_len m h : List.length h <= List.length (fst (new_tab m h)).
Proof. unfold new_tab. destruct (m _) as [s [u| |]]; simpl; auto. rewrite app_length. lia. Qed.
Lemma new_tab_res m h p : snd (new_tab m h) = Ok p -> p = List.length h.
Proof. unfold new_tab. destruct (m _) as [s [u| |]]; simpl; congruence. Qed.
Lemma set_parent_frame h q p z : z <> q -> nth_error (set_parent q p h) z = nth_error h z.
Proof. intros N. unfold set_parent. apply nth_upd_other. congruence. Qed.
Lemma set_parent_len h q p : List.length (set_parent q p h) = List.length h.
Proof. apply upd_length. Qed.

(** From h to h' tables are only added, only the tables S are changed and, if [nm], none
    is renamed. *)
Definition chg (S : list ptr) (nm : bool) (h h' : heap) : Prop :=
  List.length h <= List.length h'
  /\ (forall q, q < List.length h -> ~ In q S -> nth_error h' q = nth_error h q)
  /\ (nm = true -> forall q, q < List.length h -> tname (tab h' q) = tname (tab h q)).
Lemma chg_refl S nm h : chg S nm h h.
Proof. repeat split; auto. Qed.
Lemma chg_trans S nm h1 h2 h3 : chg S nm h1 h2 -> chg S nm h2 h3 -> chg S nm h1 h3.
Proof.
  intros (L1 & F1 & N1) (L2 & F2 & N2). split; [lia|]. split.
  - intros q L NI. rewrite F2, F1; auto. lia.
  - intros E q L. rewrite N2, N1; auto. lia.
Qed.
Lemma chg_weaken S S' nm h h' : chg S nm h h' -> incl S S' -> chg S' nm h h'.
Proof. intros (L & F & N) I. split; [auto|]. split; [|auto]. intros q Lq NI. apply F; auto. Qed.
Lemma tab_eq h h' q : nth_error h' q = nth_error h q -> tab h' q = tab h q.
Proof.
  intros E. unfold tab. destruct (nth_error h q) as [t|] eqn:H.
  - now rewrite (nth_error_nth _ _ _ E), (nth_error_nth _ _ _ H).
  - apply nth_error_None in E, H. now rewrite !nth_overflow.
Qed.
Lemma chg_on_heap {A} p (m : M A) (nm : bool) h : (nm = true -> kn m) -> chg [p] nm h (fst (on_heap p m h)).
Proof.
  intros K. split; [apply on_heap_len|]. split.
  - intros q L N. apply on_heap_frame; auto. intros ->. apply N. simpl; auto.
  - intros E q L. destruct (Nat.eq_dec q p) as [->|N].
    + destruct (nth_error_lt h p L) as [t Hp]. destruct (on_heap_self p m h t Hp) as [H _].
      unfold tab. rewrite (nth_error_nth _ _ _ H), (nth_error_nth _ _ _ Hp). rewrite (K E). reflexivity.
    + f_equal. apply tab_eq. now apply on_heap_frame.
Qed.
Lemma chg_new_tab m nm h : chg [] nm h (fst (new_tab m h)).
Proof.
  split; [apply new_tab_len|]. split.
  - intros q L _. now apply new_tab_frame.
  - intros _ q L. f_equal. apply tab_eq. now apply new_tab_frame.
Qed.
Lemma chg_new_val r nm h : chg [] nm h (fst (new_val r h)).
Proof.
  unfold new_val. destruct r; simpl; try apply chg_refl. split; [rewrite app_length; lia|]. split.
  - intros q L _. now apply nth_app_old.
  - intros _ q L. f_equal. apply tab_eq. now apply nth_app_old.
Qed.
Lemma chg_set_parent q p nm h : chg [q] nm h (set_parent q p h).
Proof.
  split; [rewrite set_parent_len; auto|]. split.
  - intros z L N. apply set_parent_frame. intros ->. apply N. simpl; auto.
  - intros _ z L. destruct (Nat.eq_dec z q) as [->|N].
    + unfold set_parent. cbv zeta. unfold tab at 1. erewrite nth_error_nth; [|apply nth_error_upd_eq; exact L]. reflexivity.
    + f_equal. apply tab_eq. now apply set_parent_frame.
Qed.

Lemma chg_setSortKeys p1 p2 nm h : chg [p1; p2] nm h (fst (setSortKeysBetweenTables p1 p2 h)).
Proof.
  unfold setSortKeysBetweenTables. destruct (SortKeyCount (tab h p1) >? 0)%Z; [|destruct (SortKeyCount (tab h p2) >? 0)%Z].
  - eapply chg_weaken; [apply chg_on_heap; intros; apply kn_SetSortKeysFromTable|]. intros x [<-|[]]; simpl; auto.
  - eapply chg_weaken; [apply chg_on_heap; intros; apply kn_SetSortKeysFromTable|]. intros x [<-|[]]; simpl; auto.
  - apply chg_refl.
Qed.
Lemma chg_sortMerged E p1 p2 p nm h : In p [p1; p2] -> chg [p1; p2] nm h (fst (sortMerged E p1 p2 p h)).
Proof.
  intros I. unfold sortMerged.
  assert (C : chg [p1; p2] nm h (fst (if (SortKeyCount (tab h p) =? 0)%Z then setSortKeysBetweenTables p1 p2 h else (h, Ok tt)))).
  { destruct (SortKeyCount (tab h p) =? 0)%Z; [apply chg_setSortKeys|apply chg_refl]. }
  destruct (if (SortKeyCount (tab h p) =? 0)%Z then setSortKeysBetweenTables p1 p2 h else (h, Ok tt)) as [h1 [u| |]]; simpl in *; auto.
  eapply chg_trans; [apply C|]. eapply chg_weaken; [apply chg_on_heap; intros; apply kn_Sort|]. intros x [<-|[]]; auto.
Qed.
Lemma chg_Merge E p1 p2 nm h : chg [p1; p2] nm h (fst (Merge E p1 p2 h)).
Proof.
  unfold Merge. destruct (RowCount (tab h p1) =? 0)%Z; [|destruct (RowCount (tab h p2) =? 0)%Z].
  - pose proof (chg_sortMerged E p1 p2 p2 nm h (or_intror (or_introl eq_refl))) as C.
    destruct (sortMerged E p1 p2 p2 h) as [h1 r]. exact C.
  - pose proof (chg_sortMerged E p1 p2 p1 nm h (or_introl eq_refl)) as C.
    destruct (sortMerged E p1 p2 p1 h) as [h1 r]. exact C.
  - pose proof (chg_setSortKeys p1 p2 nm h) as C. destruct (setSortKeysBetweenTables p1 p2 h) as [h1 [u| |]]; simpl in *; auto.
    eapply chg_trans; [apply C|]. eapply chg_weaken; [apply chg_new_tab|intros x []].
Qed.
Lemma Merge_result E p1 p2 h h' q : Merge E p1 p2 h = (h', Ok q) -> q = p1 \/ q = p2 \/ List.length h <= q.
Proof.
  unfold Merge. destruct (RowCount (tab h p1) =? 0)%Z; [|destruct (RowCount (tab h p2) =? 0)%Z].
  - destruct (sortMerged E p1 p2 p2 h) as [h1 [u| |]]; simpl; intros H; injection H; intros; subst; auto; discriminate.
  - destruct (sortMerged E p1 p2 p1 h) as [h1 [u| |]]; simpl; intros H; injection H; intros; subst; auto; discriminate.
  - pose proof (chg_setSortKeys p1 p2 true h) as (L & _). destruct (setSortKeysBetweenTables p1 p2 h) as [h1 [u| |]]; simpl in *; try discriminate.
    intros H. right. right. assert (R : snd (new_tab (merge_body E (tab h1 p1) (tab h1 p2)) h1) = Ok q) by now rewrite H.
    apply new_tab_res in R. lia.
Qed.
Lemma chg_SortUnique E p cols nm h : chg [p] nm h (fst (SortUnique E p cols h)).
Proof.
  unfold SortUnique.
  assert (C : chg [p] nm h (fst (if Nat.ltb 0 (List.length cols) then on_heap p (SetSortKeys cols) h else (h, Ok tt)))).
  { destruct (Nat.ltb 0 (List.length cols)); [apply chg_on_heap; intros; apply kn_SetSortKeys|apply chg_refl]. }
  destruct (if Nat.ltb 0 (List.length cols) then on_heap p (SetSortKeys cols) h else (h, Ok tt)) as [h1 [u| |]]; simpl in *; auto.
  destruct (Nat.eqb (List.length (skeys (tab h1 p))) 0); auto.
  assert (C2 : chg [p] nm h1 (fst (Merge E p p h1))).
  { eapply chg_weaken; [apply chg_Merge|]. intros x [<-|[<-|[]]]; simpl; auto. }
  destruct (Merge E p p h1) as [h2 r2] eqn:EM. simpl in C2. pose proof (chg_trans _ _ _ _ _ C C2) as C3.
  destruct r2 as [q| |]; auto. apply Merge_result in EM.
  destruct (on_heap q (SetName (tname (tab h2 p))) h2) as [h3 r3] eqn:EO. simpl.
  assert (h3 = fst (on_heap q (SetName (tname (tab h2 p))) h2)) by now rewrite EO. subst h3. clear EO.
  destruct C3 as (L & F & N). destruct C as (L1 & _). split; [etransitivity; [apply L|apply on_heap_len]|]. split.
  - intros z Lz NI. rewrite on_heap_frame; auto; [lia|]. intros ->. simpl in NI. lia.
  - intros En z Lz. destruct (Nat.eq_dec z q) as [->|NE].
    + assert (q = p) by lia. subst q. assert (Lp2 : p < List.length h2) by lia.
      destruct (nth_error_lt h2 p Lp2) as [t Hp].
      destruct (on_heap_self p (SetName (tname (tab h2 p))) h2 t Hp) as [H _]. unfold tab at 1. rewrite (nth_error_nth _ _ _ H).
      rewrite <- (N En p Lz). assert (TE : tab h2 p = t) by (unfold tab; now rewrite (nth_error_nth _ _ _ Hp)). rewrite TE.
      unfold SetName. destruct (IsValidTableName (tname t)); reflexivity.
    + rewrite <- (N En z Lz). f_equal. apply tab_eq. apply on_heap_frame; auto. lia.
Qed.

Lemma fst_nothing x : fst (nothing x) = fst x. Proof. reflexivity. Qed.
Lemma fst_newly x : fst (newly x) = fst x. Proof. reflexivity. Qed.
Lemma chg_Copy q h nm : chg [] nm h (fst (Copy q h)).
Proof. unfold Copy. destruct (HasCircularReference h q) as [[]| |]; try apply chg_refl. apply chg_new_tab. Qed.
Lemma chg_CopyCols q h nm : chg [] nm h (fst (CopyCols q h)).
Proof. unfold CopyCols. destruct (HasCircularReference h q) as [[]| |]; try apply chg_refl. apply chg_new_tab. Qed.

Theorem hexec_chg E c h : deep c = false -> chg (changes c) (negb (renames c)) h (fst (hexec E c h)).
Proof.
  intros D. destruct c as [[p|] o|n| |n cns cts|[p|] [q|] f l|[p|] [q|]|[p|] [q|]|[q|] n f l|[q|] n vs|[q|] ns|[q|] order|[q|]|[q|]|[q|]|[q|]|[p1|] [p2|]|[p|] cols|fuel [p|]];
    try discriminate; try (apply chg_refl);
    cbn [changes renames negb]; cbn [hexec]; rewrite ?fst_nothing, ?fst_newly;
    try apply chg_new_tab; try apply chg_new_val; try apply chg_Copy; try apply chg_CopyCols; try apply chg_Merge; try apply chg_SortUnique;
    try (apply chg_on_heap; intros; first [apply kn_AppendRowsFromTable|apply kn_AppendColsFromTable|apply kn_SetSortKeysFromTable]).
  assert (G : forall p q (m : M unit), kn m -> chg [p; q] true h (fst (on_heap p m (set_parent q p h)))).
  { intros p' q m K. eapply chg_trans; [eapply chg_weaken; [apply chg_set_parent|intros x [<-|[]]; simpl; auto]|].
    eapply chg_weaken; [apply chg_on_heap; auto|intros x [<-|[]]; simpl; auto]. }
  assert (G1 : forall c, (forall n, c <> OSetName n) -> chg [p] true h (fst (on_heap p (exec E c) h))).
  { intros c NS. apply chg_on_heap. intros _. now apply kn_exec. }
  destruct o; try (rewrite fst_nothing; apply G1; congruence);
    try (destruct v as [| | | | | | |[z|]| |]; rewrite fst_nothing; first [apply G1; congruence | apply G; first [apply kn_SetT|apply kn_SetTByColIndex]]).
  rewrite fst_nothing. apply chg_on_heap. discriminate.
Qed.

(** ---------- names under any call ---------- *)

(** Tables are only added and none is renamed. *)
Definition nk (h h' : heap) : Prop :=
  List.length h <= List.length h' /\ forall q, q < List.length h -> tname (tab h' q) = tname (tab h q).
Lemma nk_refl h : nk h h. Proof. split; auto. Qed.
Lemma nk_trans h1 h2 h3 : nk h1 h2 -> nk h2 h3 -> nk h1 h3.
Proof. intros (L1 & N1) (L2 & N2). split; [lia|]. intros q L. rewrite N2, N1; auto. lia. Qed.
Lemma chg_nk S h h' : chg S true h h' -> nk h h'.
Proof. intros (L & _ & N). split; auto. Qed.

Definition wk {X A} (m : W X A) : Prop := forall s, nk (w_heap s) (w_heap (fst (m s))).
Lemma wk_same {X A} (m : W X A) : (forall s, w_heap (fst (m s)) = w_heap s) -> wk m.
Proof. intros H s. rewrite H. apply nk_refl. Qed.
Lemma wk_bind {X A B} (m : W X A) (f : A -> W X B) : wk m -> (forall x, wk (f x)) -> wk (wbind m f).
Proof.
  intros Hm Hf s. unfold wbind. specialize (Hm s). destruct (m s) as [s1 [x| |]]; simpl in *; auto.
  eapply nk_trans; [apply Hm|apply Hf].
Qed.
Lemma wk_wfor {X A} (l : list A) (body : A -> W X unit) : (forall x, wk (body x)) -> wk (wfor l body).
Proof. intros H. induction l; simpl; [apply wk_same; auto|]. apply wk_bind; auto. Qed.
Lemma wk_wheap {X A} (f : heap -> heap * res A) : (forall h, nk h (fst (f h))) -> wk (@wheap X A f).
Proof. intros H s. unfold wheap. specialize (H (w_heap s)). destruct (f (w_heap s)); auto. Qed.

Lemma wk_Walk {X} nested (vT : ptr -> W X unit) vR vC fuel :
  (forall p, wk (vT p)) -> (forall p ri, wk (vR p ri)) -> (forall i, wk (vC i)) ->
  forall p, wk (Walk fuel nested vT vR vC p).
Proof.
  intros HT HR HC. assert (WT : forall p, wk (@wtab X p)) by (intros; apply wk_same; auto).
  assert (WL : forall A (r : res A), wk (@wlift X A r)) by (intros; apply wk_same; auto).
  induction fuel as [|fuel IH]; intros p; cbn [Walk]; [apply WL|].
  apply wk_bind; [apply HT|intros _]. apply wk_bind; [apply WT|intros t].
  apply wk_wfor. intros ri. apply wk_bind; [apply HR|intros _]. apply wk_bind; [apply WT|intros t'].
  apply wk_wfor. intros ci. apply wk_bind; [apply WT|intros t'']. apply wk_bind; [apply WL|intros info].
  apply wk_bind; [apply HC|intros _]. destruct (nested && (ci_type info =? "*Table")); [|apply wk_same; auto].
  apply wk_bind; [apply WT|intros t3]. apply wk_bind; [apply WL|intros [q|]]; [|apply WL].
  apply wk_bind; [apply WT|intros t4]. apply wk_bind; [|intros; apply IH].
  destruct (is_nil t4); [apply wk_same; auto|]. apply wk_same. intros s. destruct (in_set q (w_safe s)); reflexivity.
Qed.

Lemma nk_CopyDeep fuel p h : nk h (fst (CopyDeep fuel p h)).
Proof.
  unfold CopyDeep.
  assert (K : wk (Walk fuel true (fun _ => wret tt) (fun _ _ => wret tt) copydeep_visit p)).
  { apply wk_Walk; try (intros; apply wk_same; auto; fail). intros i. unfold copydeep_visit.
    assert (WT : forall p, wk (@wtab ptr p)) by (intros; apply wk_same; auto).
    assert (WL : forall A (r : res A), wk (@wlift ptr A r)) by (intros; apply wk_same; auto).
    apply wk_bind; [|intros; apply wk_same; auto]. destruct (ci_type i =? "*Table"); [|apply wk_same; auto].
    apply wk_bind; [apply WT|intros t]. apply wk_bind; [apply WL|intros [q|]]; [|apply WL].
    apply wk_bind; [apply WT|intros tq]. apply wk_bind.
    - destruct (is_nil tq); apply wk_wheap; intros; [eapply chg_nk, chg_new_tab|eapply chg_nk, chg_Copy].
    - intros q'. apply wk_wheap. intros h'. unfold SetTableByColIndex. eapply nk_trans.
      + eapply chg_nk, chg_set_parent.
      + eapply chg_nk, chg_on_heap. intros; apply kn_SetTByColIndex. }
  specialize (K (mkW h [] p)). simpl in K.
  destruct (Walk fuel true (fun _ => wret tt) (fun _ _ => wret tt) copydeep_visit p (mkW h [] p)) as [s [u| |]]; exact K.
Qed.

Theorem hexec_names E c h : List.length h <= List.length (fst (hexec E c h))
  /\ forall q, q < List.length h -> ~ In q (renamed c) -> tname (tab (fst (hexec E c h)) q) = tname (tab h q).
Proof.
  destruct (deep c) eqn:D.
  - destruct c as [| | | | | | | | | | | | | | | | |fuel p]; try discriminate. destruct p as [p|]; [|split; auto]. cbn [hexec]. rewrite fst_newly.
    destruct (nk_CopyDeep fuel p h) as [L N]. split; auto.
  - pose proof (hexec_chg E c h D) as (L & F & N). split; auto. intros q Lq NR. destruct (renames c) eqn:R; auto.
    f_equal. apply tab_eq. apply F; auto. destruct c as [o c| | | | | | | | | | | | | | | | |]; try discriminate. destruct o as [p|]; [|simpl; tauto]. destruct c; try discriminate. exact NR.
Qed.
