(** Proofs_Struct.v -- rows and columns: closed forms and well-formedness. *)
From Coq Require Import ZArith NArith List String Ascii Bool Lia Permutation SpecFloat.
From Coq Require Import ZifyBool ZifyNat ZifyN.
From Verif Require Import Base Model_Names Model_Table Spec Proofs_Lib Proofs_Table Proofs_Cells.
Import ListNotations.
Local Open Scope string_scope.
Local Open Scope list_scope.

(** ---------- DeleteRows ---------- *)

Definition rows_deleted (a b : nat) (s : st) : st :=
  on_tab (with_rows (firstn a (rows (s_tab s)) ++ skipn (S b) (rows (s_tab s)))) s.

Lemma DeleteRows_eq f l s :
  DeleteRows f l s = if ((0 <=? f) && (f <=? l) && (l <? RowCount (s_tab s)))%Z
                     then (rows_deleted (Z.to_nat f) (Z.to_nat l) s, Ok tt) else (s, Err).
Proof.
  unfold DeleteRows. mstep.
  destruct ((0 <=? f) && (f <=? l) && (l <? RowCount (s_tab s)))%Z eqn:E.
  - replace (negb ((f <? 0) || (f >? RowCount (s_tab s) - 1))%Z) with true by lia. mstep.
    replace (negb ((l <? 0) || (l >? RowCount (s_tab s) - 1))%Z) with true by lia. mstep.
    replace (negb (f >? l)%Z) with true by lia.
    unfold rows_deleted, modify. do 3 f_equal. f_equal. f_equal. f_equal. lia.
  - destruct (negb ((f <? 0) || (f >? RowCount (s_tab s) - 1))%Z) eqn:E1; [|reflexivity]. mstep.
    destruct (negb ((l <? 0) || (l >? RowCount (s_tab s) - 1))%Z) eqn:E2; [|reflexivity]. mstep.
    replace (negb (f >? l)%Z) with false by lia. reflexivity.
Qed.

Lemma Forall_skipn {A} (P : A -> Prop) n l : Forall P l -> Forall P (skipn n l).
Proof. intros H; revert n; induction H; intros [|n]; simpl; auto. Qed.
Lemma Forall_firstn {A} (P : A -> Prop) n l : Forall P l -> Forall P (firstn n l).
Proof. intros H; revert n; induction H; intros [|n]; simpl; auto. Qed.

Lemma wf_with_rows t rs : wf_table t -> Forall (Forall2 cell_ok (ctypes t)) rs ->
  (is_nil t = true -> rs = []) -> wf_table (with_rows rs t).
Proof.
  intros [Wn Wd Wc Wl Wt Wm Wr] H Hn. constructor; simpl; auto.
  destruct Wn as [?|[? [? [? ?]]]]; [left; auto|right; auto].
Qed.

Lemma wf_nil_rows t : wf_table t -> is_nil t = true -> rows t = [].
Proof. intros W H. destruct (wf_name _ W) as [[E _]|[_ [_ [_ E]]]]; congruence. Qed.

Lemma rows_deleted_wf a b s : wf_table (s_tab s) -> wf_table (s_tab (rows_deleted a b s)).
Proof.
  intros W. apply wf_with_rows; auto.
  - apply Forall_app. split; [apply Forall_firstn|apply Forall_skipn]; apply (wf_cells _ W).
  - intros E. rewrite (wf_nil_rows _ W E). destruct a; reflexivity.
Qed.

Lemma DeleteRow_eq i s :
  DeleteRow i s = if ((0 <=? i) && (i <? RowCount (s_tab s)))%Z
                  then (rows_deleted (Z.to_nat i) (Z.to_nat i) s, Ok tt) else (s, Err).
Proof.
  unfold DeleteRow. mstep. destruct ((0 <=? i) && (i <? RowCount (s_tab s)))%Z eqn:E.
  - replace (negb ((i <? 0) || (i >? RowCount (s_tab s) - 1))%Z) with true by lia.
    rewrite DeleteRows_eq. replace ((0 <=? i) && (i <=? i) && (i <? RowCount (s_tab s)))%Z with true by lia. reflexivity.
  - replace (negb ((i <? 0) || (i >? RowCount (s_tab s) - 1))%Z) with false by lia. reflexivity.
Qed.

Lemma DeleteRowsAll_eq s : DeleteRowsAll s = (on_tab (with_rows []) s, Ok tt).
Proof.
  unfold DeleteRowsAll. mstep. destruct (RowCount (s_tab s) >? 0)%Z eqn:E.
  - rewrite DeleteRows_eq.
    replace ((0 <=? 0) && (0 <=? RowCount (s_tab s) - 1) && (RowCount (s_tab s) - 1 <? RowCount (s_tab s)))%Z with true by lia.
    unfold rows_deleted. do 3 f_equal. rewrite skipn_all2; [reflexivity|]. unfold RowCount. lia.
  - unfold ret. f_equal. unfold RowCount in E. destruct (rows (s_tab s)) eqn:Er; simpl in E; try lia.
    unfold on_tab, with_rows. rewrite <- Er, table_eta, st_eta. reflexivity.
Qed.

(** ---------- DeleteCol ---------- *)

Definition col_deleted (c : nat) (s : st) : st :=
  let t := s_tab s in
  mkS (mkT (tname t) (remove_at c (cnames t)) (remove_at c (ctypes t))
           (renumber (remove_at c (cnames t)) 0 (mdel (cmap t) (nth c (cnames t) "")))
           (map (remove_at c) (rows t)) (skeys t) (struct_shape t) (is_nil t) (parent t))
      (s_base s) (s_news s).

Lemma ColName_eq t ci : ColName t ci =
  if HasColByColIndex t ci then Ok (nth (Z.to_nat ci) (cnames t) "") else Err.
Proof.
  unfold ColName, HasColByColIndex, ColCount.
  destruct ((ci <? 0)%Z || (ci >? Z.of_nat (List.length (cnames t)) - 1)%Z) eqn:E; auto. cbn [negb].
  destruct (znth (cnames t) ci) eqn:E2.
  - apply znth_some in E2. destruct E2 as [_ E2]. f_equal. symmetry. now apply nth_error_nth.
  - apply znth_none in E2. lia.
Qed.

Lemma DeleteColByColIndex_eq ci s :
  DeleteColByColIndex ci s = if HasColByColIndex (s_tab s) ci then (col_deleted (Z.to_nat ci) s, Ok tt) else (s, Err).
Proof.
  unfold DeleteColByColIndex. mstep. fold (HasColByColIndex (s_tab s) ci).
  destruct (HasColByColIndex (s_tab s) ci) eqn:E; [|reflexivity]. mstep. rewrite ColName_eq, E.
  reflexivity.
Qed.

Lemma In_remove_at_ne {A} (l : list A) c x : In x l -> nth_error l c <> Some x -> In x (remove_at c l).
Proof.
  revert c; induction l as [|y l IH]; intros c H Hn; [destruct H|].
  destruct c as [|c].
  - simpl in Hn. destruct H as [->|H]; [congruence|auto].
  - rewrite remove_at_S. destruct H as [->|H]; [left; auto|right; apply IH; auto].
Qed.

Lemma not_In_remove_at {A} (l : list A) c x : NoDup l -> nth_error l c = Some x -> ~ In x (remove_at c l).
Proof.
  intros H; revert c; induction H as [|y l Hy H IH]; intros c Hc.
  - destruct c; discriminate.
  - destruct c as [|c].
    + simpl in Hc. inversion Hc; subst. auto.
    + rewrite remove_at_S. simpl in Hc. intros [->|Hin].
      * apply Hy. eapply nth_error_In; eauto.
      * eapply IH; eauto.
Qed.

Lemma col_deleted_wf c s : wf_table (s_tab s) -> c < List.length (cnames (s_tab s)) -> wf_table (s_tab (col_deleted c s)).
Proof.
  intros [Wn Wd Wc Wl Wt Wm Wr] Hc. constructor; simpl.
  - destruct Wn as [?|[? [? [E ?]]]]; [left; auto|]. rewrite E in Hc; simpl in Hc; lia.
  - now apply NoDup_remove_at.
  - now apply Forall_remove_at.
  - now apply remove_at_length_eq.
  - now apply Forall_remove_at.
  - destruct (nth_error_lt _ _ Hc) as [cn Hcn]. rewrite (nth_error_nth _ _ _ Hcn).
    apply mget_renumber_spec; [now apply NoDup_remove_at|].
    intros n Hn. rewrite mget_mdel. destruct (String.eqb_spec n cn); auto.
    destruct (mget (cmap (s_tab s)) n) as [i|] eqn:E; auto. apply Wm in E. exfalso. apply Hn.
    apply In_remove_at_ne; [eapply nth_error_In; eauto|congruence].
  - rewrite Forall_map. eapply Forall_impl; [|exact Wr]. intros row. apply Forall2_remove_at.
Qed.

(** ---------- RenameCol ---------- *)

Definition col_renamed (i : nat) (old new : string) (s : st) : st :=
  on_tab (fun t => with_cols (upd (cnames t) i new) (ctypes t) (mset (mdel (cmap t) old) new i) t) s.

Lemma RenameCol_eq old new s : wf_table (s_tab s) ->
  (exists i, nth_error (cnames (s_tab s)) i = Some old /\ ~ In new (cnames (s_tab s)) /\ valid_name new /\
     RenameCol old new s = (col_renamed i old new s, Ok tt))
  \/ ~ (In old (cnames (s_tab s)) /\ ~ In new (cnames (s_tab s)) /\ valid_name new) /\ RenameCol old new s = (s, Err).
Proof.
  intros W. unfold RenameCol. mstep. rewrite !(wf_HasCol _ W).
  destruct (in_dec string_dec old (cnames (s_tab s))) as [Ho|Ho]; [|right; split; [tauto|reflexivity]]. mstep.
  rewrite !(wf_HasCol _ W).
  destruct (in_dec string_dec new (cnames (s_tab s))) as [Hn|Hn]; [right; split; [tauto|reflexivity]|]. mstep. cbn [negb].
  destruct (IsValidColName new) eqn:Ev.
  2:{ right; split; [|reflexivity]. intros [_ [_ H]]. apply IsValidColName_spec in H. congruence. }
  mstep. destruct (ColIndex_cases _ old W) as [[i [Hi ->]]|[Hi _]]; [|contradiction].
  left. exists i. repeat split; auto; try (now apply IsValidColName_spec).
  rewrite Nat2Z.id. reflexivity.
Qed.

Lemma In_upd {A} (l : list A) i x y : In y (upd l i x) -> y = x \/ In y l.
Proof.
  revert i; induction l as [|z l IH]; intros i H; simpl in *; auto.
  destruct i; simpl in H; destruct H as [H|H]; auto. apply IH in H. tauto.
Qed.

Lemma NoDup_upd {A} (l : list A) i x : NoDup l -> ~ In x l -> NoDup (upd l i x).
Proof.
  intros H; revert i; induction H as [|y l Hy H IH]; intros i Hx; simpl; [constructor|].
  destruct i; constructor; auto.
  - intros C; apply Hx; right; auto.
  - intros C. apply In_upd in C. destruct C as [->|C]; auto. apply Hx; left; auto.
  - apply IH. intros C; apply Hx; right; auto.
Qed.

Lemma col_renamed_wf i old new s : wf_table (s_tab s) -> nth_error (cnames (s_tab s)) i = Some old ->
  ~ In new (cnames (s_tab s)) -> valid_name new -> wf_table (s_tab (col_renamed i old new s)).
Proof.
  intros [Wn Wd Wc Wl Wt Wm Wr] Hi Hn Hv. constructor; simpl; auto.
  - destruct Wn as [?|[? [? [E ?]]]]; [left; auto|]. rewrite E in Hi; destruct i; discriminate.
  - now apply NoDup_upd.
  - now apply Forall_upd.
  - rewrite upd_length; auto.
  - intros n j. rewrite mget_mset. pose proof (nth_error_some_lt _ _ _ Hi) as Hlt.
    rewrite nth_error_upd. destruct (Nat.ltb_spec i (List.length (cnames (s_tab s)))); [|lia].
    destruct (String.eqb_spec n new) as [->|Hne].
    + destruct (Nat.eqb_spec i j) as [->|Hij]; [split; congruence|].
      split; [congruence|]. intros E. apply nth_error_In in E. contradiction.
    + rewrite mget_mdel. destruct (String.eqb_spec n old) as [->|Hno].
      * destruct (Nat.eqb_spec i j) as [->|Hij]; [split; congruence|].
        split; [congruence|]. intros E. exfalso; apply Hij. exact (NoDup_nth _ _ _ _ Wd Hi E).
      * rewrite Wm. destruct (Nat.eqb_spec i j) as [->|Hij]; [|reflexivity]. split; congruence.
Qed.

(** ---------- ReorderCols ---------- *)

Lemma zinsert_perm x l : Permutation (zinsert x l) (x :: l).
Proof.
  induction l as [|y l IH]; simpl; auto. destruct (x <=? y)%Z; auto.
  rewrite IH. apply perm_swap.
Qed.
Lemma zsort_perm l : Permutation (zsort l) l.
Proof. induction l as [|x l IH]; simpl; auto. rewrite zinsert_perm. now constructor. Qed.

Lemma zinsert_comm x y l : zinsert x (zinsert y l) = zinsert y (zinsert x l).
Proof.
  induction l as [|z l IH]; simpl.
  - destruct (x <=? y)%Z eqn:E1, (y <=? x)%Z eqn:E2; simpl; auto; try lia.
    assert (x = y) by lia; subst; auto.
  - destruct (y <=? z)%Z eqn:E1, (x <=? z)%Z eqn:E2; simpl; rewrite ?E1, ?E2.
    + destruct (x <=? y)%Z eqn:E3, (y <=? x)%Z eqn:E4; auto; try lia. assert (x = y) by lia; subst; auto.
    + replace (x <=? y)%Z with false by lia. auto.
    + replace (y <=? x)%Z with false by lia. auto.
    + f_equal; auto.
Qed.

Lemma zsort_Permutation l1 l2 : Permutation l1 l2 -> zsort l1 = zsort l2.
Proof.
  induction 1; simpl; auto.
  - now f_equal.
  - apply zinsert_comm.
  - congruence.
Qed.

Lemma zsort_zseq n : zsort (zseq n) = zseq n.
Proof.
  unfold zseq. generalize 0 as k. induction n as [|n IH]; intros k; simpl; auto.
  rewrite IH. destruct n as [|n]; auto. cbn [seq map zinsert].
  destruct (Z.of_nat k <=? Z.of_nat (S k))%Z eqn:E; auto. lia.
Qed.

Lemma zlist_eqb_eq a b : zlist_eqb a b = true <-> a = b.
Proof.
  revert b; induction a as [|x a IH]; intros [|y b]; simpl; split; try congruence; auto.
  - rewrite andb_true_iff, IH. intros [H ->]. f_equal. lia.
  - intros [= -> ->]. rewrite andb_true_iff, IH. split; auto. lia.
Qed.

Lemma valid_order_spec n order : valid_order n order = true <-> Permutation order (zseq n).
Proof.
  unfold valid_order. rewrite zlist_eqb_eq. split; intros H.
  - rewrite <- H. symmetry. apply zsort_perm.
  - rewrite (zsort_Permutation _ _ H). apply zsort_zseq.
Qed.

Definition reordered (order : list Z) (t : table) : table :=
  mkT (tname t) (permute order "" (cnames t)) (permute order "" (ctypes t))
      (renumber (permute order "" (cnames t)) 0 (cmap t))
      (map (permute order VNil) (rows t)) (skeys t) (struct_shape t) (is_nil t) (parent t).

Lemma ReorderColsByColIndex_eq order s :
  (Permutation order (zseq (List.length (cnames (s_tab s)))) /\
     ReorderColsByColIndex order s = (on_tab (reordered order) s, Ok tt))
  \/ (~ Permutation order (zseq (List.length (cnames (s_tab s)))) /\ ReorderColsByColIndex order s = (s, Err)).
Proof.
  unfold ReorderColsByColIndex. mstep.
  destruct (Nat.eqb_spec (List.length order) (List.length (cnames (s_tab s)))) as [E|E].
  2:{ right; split; auto. intros P. apply Permutation_length in P. rewrite zseq_length in P. contradiction. }
  mstep. destruct (valid_order _ order) eqn:Ev.
  - left. apply valid_order_spec in Ev. split; auto.
  - right. split; auto. rewrite <- valid_order_spec. congruence.
Qed.

Lemma permute_zseq {A} (d : A) l : permute (zseq (List.length l)) d l = l.
Proof.
  apply nth_error_ext. intros i. unfold permute. rewrite nth_error_map, nth_error_zseq.
  destruct (Nat.ltb_spec i (List.length l)) as [H|H]; simpl.
  - rewrite Nat2Z.id. symmetry. apply nth_error_nth'; auto.
  - symmetry. now apply nth_error_None.
Qed.

Lemma permute_perm {A} order (d : A) l : Permutation order (zseq (List.length l)) -> Permutation (permute order d l) l.
Proof.
  intros H. rewrite <- (permute_zseq d l) at 2. unfold permute. now apply Permutation_map.
Qed.

Lemma permute_length {A} order (d : A) l : List.length (permute order d l) = List.length order.
Proof. apply map_length. Qed.

Lemma permute_Forall2 {A B} (P : A -> B -> Prop) order da db la lb :
  Forall2 P la lb -> Forall (fun z => (0 <= z < Z.of_nat (List.length la))%Z) order ->
  Forall2 P (permute order da la) (permute order db lb).
Proof.
  intros F H. pose proof (Forall2_len _ _ _ F) as El.
  induction H as [|z order Hz H IH]; simpl; constructor; auto.
  assert (Hlt : Z.to_nat z < List.length la) by lia.
  destruct (nth_error_lt la _ Hlt) as [a Ha]. destruct (Forall2_nth _ _ _ _ _ F Ha) as [b [Hb Hp]].
  now rewrite (nth_error_nth _ _ da Ha), (nth_error_nth _ _ db Hb).
Qed.

Lemma order_range n order : Permutation order (zseq n) -> Forall (fun z => (0 <= z < Z.of_nat n)%Z) order.
Proof. intros H. apply Forall_forall. intros z Hz. apply In_zseq. eapply Permutation_in; eauto. Qed.

Lemma reordered_wf order t : wf_table t -> Permutation order (zseq (List.length (cnames t))) ->
  wf_table (reordered order t).
Proof.
  intros [Wn Wd Wc Wl Wt Wm Wr] P.
  pose proof (permute_perm order "" (cnames t) P) as Pn.
  assert (Pt : Permutation (permute order "" (ctypes t)) (ctypes t)) by (apply permute_perm; now rewrite Wl).
  constructor; simpl.
  - destruct Wn as [?|[? [? [E1 E2]]]]; [left; auto|right]. repeat split; auto.
    + rewrite E1 in Pn |- *. apply Permutation_nil. now symmetry.
    + now rewrite E2.
  - eapply Permutation_NoDup; [symmetry; exact Pn|auto].
  - eapply Permutation_Forall; [symmetry; exact Pn|auto].
  - rewrite !permute_length; auto.
  - eapply Permutation_Forall; [symmetry; exact Pt|auto].
  - apply mget_renumber_spec.
    + eapply Permutation_NoDup; [symmetry; exact Pn|auto].
    + intros n Hn. destruct (mget (cmap t) n) as [i|] eqn:E; auto. apply Wm, nth_error_In in E.
      exfalso; apply Hn. eapply Permutation_in; [symmetry; exact Pn|auto].
  - rewrite Forall_map. eapply Forall_impl; [|exact Wr]. intros row Hrow.
    apply permute_Forall2; auto. rewrite Wl. now apply order_range.
Qed.

Lemma mapM_ColIndex t names : wf_table t ->
  (exists order, mapM (ColIndex t) names = Ok order /\ Forall2 (fun n z => (0 <= z)%Z /\ nth_error (cnames t) (Z.to_nat z) = Some n) names order)
  \/ (mapM (ColIndex t) names = Err /\ ~ (forall n, In n names -> In n (cnames t))).
Proof.
  intros W. induction names as [|n names IH]; simpl.
  - left. exists []. split; auto.
  - destruct (ColIndex_cases t n W) as [[i [Hi E]]|[Hi E]]; rewrite E; simpl.
    + destruct IH as [[order [-> F]]|[-> F]]; simpl.
      * left. exists (Z.of_nat i :: order). split; auto. constructor; auto. split; [lia|]. now rewrite Nat2Z.id.
      * right. split; auto.
    + right. split; auto.
Qed.

(** ---------- Reverse, Shuffle ---------- *)

Lemma swap_rows_app {A} (a m b : list A) x y :
  swap_rows (List.length a) (List.length a + S (List.length m)) (a ++ x :: m ++ y :: b) = a ++ y :: m ++ x :: b.
Proof.
  unfold swap_rows. rewrite nth_error_app2 by lia. rewrite Nat.sub_diag. simpl.
  rewrite nth_error_app2 by lia. replace (List.length a + S (List.length m) - List.length a) with (S (List.length m)) by lia. simpl.
  rewrite nth_error_app2 by lia. rewrite Nat.sub_diag. simpl.
  rewrite upd_app_mid.
  replace (a ++ y :: m ++ y :: b) with ((a ++ y :: m) ++ y :: b) by (rewrite <- app_assoc; reflexivity).
  replace (List.length a + S (List.length m)) with (List.length (a ++ y :: m)) by (rewrite app_length; simpl; lia).
  rewrite upd_app_mid. rewrite <- app_assoc. reflexivity.
Qed.

Lemma reverse_loop_mid {A} fuel : forall (a m b : list A), List.length m <= fuel ->
  reverse_loop fuel (List.length a) (List.length a + List.length m - 1) (a ++ m ++ b) = a ++ rev m ++ b.
Proof.
  induction fuel as [|fuel IH]; intros a m b Hm.
  - destruct m; [reflexivity|simpl in Hm; lia].
  - simpl. destruct m as [|x m].
    + replace (Nat.ltb (List.length a) (List.length a + List.length (@nil A) - 1)) with false
        by (symmetry; apply Nat.ltb_ge; simpl; lia). reflexivity.
    + destruct m as [|y m _] using rev_ind.
      * replace (Nat.ltb (List.length a) (List.length a + List.length [x] - 1)) with false
          by (symmetry; apply Nat.ltb_ge; simpl; lia). reflexivity.
      * replace (Nat.ltb (List.length a) (List.length a + List.length (x :: m ++ [y]) - 1)) with true
          by (symmetry; apply Nat.ltb_lt; simpl; rewrite app_length; simpl; lia).
        replace (List.length a + List.length (x :: m ++ [y]) - 1) with (List.length a + S (List.length m))
          by (simpl; rewrite app_length; simpl; lia).
        replace (a ++ (x :: m ++ [y]) ++ b) with (a ++ x :: m ++ y :: b) by (simpl; rewrite <- app_assoc; reflexivity).
        rewrite swap_rows_app.
        specialize (IH (a ++ [y]) m (x :: b)).
        rewrite app_length in IH. simpl in IH.
        replace (List.length a + 1) with (S (List.length a)) in IH by lia.
        replace (List.length a + S (List.length m) - 1) with (S (List.length a) + List.length m - 1) by lia.
        replace (a ++ y :: m ++ x :: b) with ((a ++ [y]) ++ m ++ x :: b) by (rewrite <- app_assoc; reflexivity).
        rewrite IH by (simpl in Hm; rewrite app_length in Hm; simpl in Hm; lia).
        simpl. rewrite rev_app_distr. simpl. rewrite <- !app_assoc. simpl. rewrite <- ?app_assoc. reflexivity.
Qed.

Lemma reverse_loop_rev {A} (l : list A) : reverse_loop (List.length l) 0 (List.length l - 1) l = rev l.
Proof.
  pose proof (reverse_loop_mid (List.length l) [] l [] (le_n _)) as H. simpl in H. rewrite !app_nil_r in H. exact H.
Qed.

Lemma Reverse_eq s : Reverse s = (on_tab (fun t => with_rows (rev (rows t)) t) s, Ok tt).
Proof. unfold Reverse, modify, on_tab. now rewrite reverse_loop_rev. Qed.

Lemma upd_swap_perm {A} (l : list A) i j x y : i <> j ->
  nth_error l i = Some x -> nth_error l j = Some y -> Permutation (upd (upd l i y) j x) l.
Proof.
  assert (K : forall (l : list A) i x y, nth_error l i = Some x -> Permutation (x :: upd l i y) (y :: l)).
  { clear. induction l as [|z l IH]; intros [|i] x y H; simpl in *; try discriminate.
    - inversion H; subst. apply perm_swap.
    - rewrite perm_swap. rewrite (IH i x y H). apply perm_swap. }
  revert i j; induction l as [|z l IH]; intros [|i] [|j] Hij Hi Hj; simpl in *; try discriminate; try congruence.
  - inversion Hi; subst. apply Permutation_trans with (y :: upd l j x); auto.
  - inversion Hj; subst. apply Permutation_trans with (x :: upd l i y); auto.
  - constructor. apply IH; auto.
Qed.

Lemma swap_rows_perm {A} i j (l : list A) : Permutation (swap_rows i j l) l.
Proof.
  unfold swap_rows. destruct (nth_error l i) eqn:Ei; auto. destruct (nth_error l j) eqn:Ej; auto.
  destruct (Nat.eq_dec i j) as [->|H].
  - rewrite upd_upd. rewrite upd_same; auto.
  - apply upd_swap_perm; auto.
Qed.

Lemma Shuffle_rows_perm sw (l : list (list value)) :
  Permutation (fold_left (fun rs p => swap_rows (fst p) (snd p) rs) sw l) l.
Proof.
  revert l; induction sw as [|p sw IH]; intros l; simpl; auto. rewrite IH. apply swap_rows_perm.
Qed.

Lemma wf_perm_rows t rs : wf_table t -> Permutation rs (rows t) -> wf_table (with_rows rs t).
Proof.
  intros W P. apply wf_with_rows; auto.
  - eapply Permutation_Forall; [symmetry; exact P|]. apply (wf_cells _ W).
  - intros E. rewrite (wf_nil_rows _ W E) in P. now apply Permutation_nil; symmetry.
Qed.
