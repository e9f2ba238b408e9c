(** Proofs_Deep.v -- what CopyDeep does (for Props_Deep.v). *)
From Coq Require Import ZArith NArith List String Ascii Bool Relations Sorted Lia.
From Verif Require Import Base Model_Names Model_Table Model_Copy Model_Heap Spec Spec_Copy Spec_Heap Spec_Walk Spec_Deep.
From Verif Require Import Proofs_Lib Proofs_Table Proofs_Cells Proofs_Api Proofs_Pres Proofs_Copy Proofs_Heap Proofs_Frame Proofs_Walk Proofs_Nesting.
Import ListNotations.
Local Open Scope string_scope.
Local Open Scope list_scope.

(** ---------- frames ---------- *)

Lemma visits_frame h h' :
  (forall p evs, visits h p evs -> (forall r, In r (tables_of evs) -> nth_error h' r = nth_error h r) -> visits h' p evs)
  /\ (forall p t r rs evs, visits_rows h p t r rs evs -> (forall r, In r (tables_of evs) -> nth_error h' r = nth_error h r) -> visits_rows h' p t r rs evs)
  /\ (forall p t r c ns cts vs evs, visits_cells h p t r c ns cts vs evs -> (forall r, In r (tables_of evs) -> nth_error h' r = nth_error h r) -> visits_cells h' p t r c ns cts vs evs).
Proof.
  apply visits_all.
  - intros p t evs N _ IH A. econstructor; [rewrite A; [exact N|now left]|]. apply IH. intros r I. apply A. now right.
  - intros. constructor.
  - intros p t r row rs ce re _ IH1 _ IH2 A. cbn [tables_of flat_map app] in A. fold (tables_of (ce ++ re)) in A. rewrite tables_of_app in A. constructor; [apply IH1|apply IH2]; intros z I; apply A, in_or_app; auto.
  - intros. constructor.
  - intros p t r c n ns ct cts v vs evs NT _ IH A. constructor; auto.
  - intros p t r c n ns cts q vs qe evs _ IH1 _ IH2 A. cbn [tables_of flat_map app] in A. fold (tables_of (qe ++ evs)) in A. rewrite tables_of_app in A. constructor; [apply IH1|apply IH2]; intros z I; apply A, in_or_app; auto.
Qed.

Definition agree_below (h h' : heap) (q : ptr) : Prop := forall r, clos_refl_trans _ (nests h) q r -> nth_error h' r = nth_error h r.
Lemma tab_agree h h' r : nth_error h' r = nth_error h r -> tab h' r = tab h r.
Proof. intros E. unfold tab. rewrite !nth_default_eq || idtac. destruct (nth_error h r) eqn:N; [rewrite (nth_error_nth _ _ _ N); now rewrite (nth_error_nth _ _ _ E)|]. apply nth_error_None in N, E. now rewrite !nth_overflow. Qed.
Lemma agree_nested h h' q r : q < List.length h -> agree_below h h' q -> In r (nested_in (rows (tab h q))) -> agree_below h h' r.
Proof. intros L A I z Z. apply A. eapply rt_trans; [|exact Z]. apply rt_step. now apply tab_nests. Qed.
Lemma map_nested_ext {B} (f g : value -> B) rs : (forall v, (forall q, v <> VTable (Some q)) -> f v = g v) -> (forall q, In q (nested_in rs) -> f (VTable (Some q)) = g (VTable (Some q))) ->
  map (map f) rs = map (map g) rs.
Proof.
  intros P Q. apply map_ext_in. intros row IR. apply map_ext_in. intros v IV. destruct v; try (apply P; discriminate). destruct o as [q|]; [|apply P; discriminate].
  apply Q. unfold nested_in. apply in_flat_map. exists row. split; [exact IR|]. apply in_flat_map. eexists. split; [exact IV|]. now left.
Qed.
Lemma sight_frame h h' k : wf_heap h -> forall q, q < List.length h -> agree_below h h' q -> sight_of k h' q = sight_of k h q.
Proof.
  intros W. induction k as [|k IH]; intros q L A; [reflexivity|]. cbn [sight_of]. cbv zeta. rewrite (tab_agree h h' q (A q (rt_refl _ _ _))). destruct (is_nil (tab h q)); [reflexivity|]. f_equal.
  apply map_nested_ext; [intros v NV; destruct v as [| | | | | | |[z|]| |]; auto; now destruct (NV z)|].
  intros r I. cbn beta iota. f_equal. apply IH; [eapply nested_lt; eassumption|]. eapply agree_nested; eassumption.
Qed.

(** ---------- tables that can be copied ---------- *)

Definition good (h : heap) (q : ptr) : Prop := is_nil (tab h q) = true \/ IsValidTableNesting h q = Ok tt.
Fixpoint copyable (k : nat) (h : heap) (p : ptr) : Prop :=
  match k with
  | O => False
  | S k => forall q, In q (nested_in (rows (tab h p))) -> good h q /\ copyable k h q
  end.
Lemma copyable_acyclic h : forall k p, copyable k h p -> ~ clos_trans _ (nests h) p p.
Proof.
  induction k as [|k IH]; intros p C T; [exact C|]. apply clos_trans_t1n in T. inversion T as [|q z N R]; subst.
  - destruct (nests_tab _ _ _ H) as [_ I]. destruct (C p I) as [_ C']. apply (IH p C'). now apply t_step.
  - destruct (nests_tab _ _ _ N) as [_ I]. destruct (C q I) as [_ C']. apply (IH q C'). apply clos_t1n_trans in R. eapply t_trans; [exact R|]. now apply t_step.
Qed.
Lemma copyable_S h : forall k p, copyable k h p -> copyable (S k) h p.
Proof. induction k as [|k IH]; intros p C; [destruct C|]. intros q I. destruct (C q I). split; auto. Qed.
Lemma nil_nests h q : wf_heap h -> is_nil (tab h q) = true -> nested_in (rows (tab h q)) = [].
Proof.
  intros W N. destruct (tab_wf h q W) as [WT _]. pose proof (wf_nil_cols _ WT N) as C. pose proof (wf_types_len _ WT) as TL. rewrite C in TL. destruct (ctypes (tab h q)) eqn:CT; [|discriminate].
  pose proof (wf_cells _ WT) as WC. rewrite CT in WC. clear - WC. induction (rows (tab h q)) as [|r rs IH]; [reflexivity|]. inversion WC; subst. inversion H1; subst. cbn. now apply IH.
Qed.
Lemma good_copyable h q : wf_heap h -> q < List.length h -> good h q -> copyable 2 h q.
Proof.
  intros W L [N|V].
  - intros r I. rewrite nil_nests in I by auto. destruct I.
  - apply IsValidTableNesting_iff in V; auto. destruct V as [ND F]. intros r I. pose proof (F r I) as E. split.
    + right. apply IsValidTableNesting_iff; [auto|eapply nested_lt; eassumption|]. split; [rewrite E; constructor; [intros []|constructor]|]. intros z Z. rewrite E in Z. destruct Z.
    + intros z Z. rewrite E in Z. destruct Z.
Qed.
Lemma good_frame h h' q : wf_heap h -> wf_heap h' -> List.length h <= List.length h' -> q < List.length h -> agree_below h h' q -> good h q -> good h' q.
Proof.
  intros W W' LL L A [N|V]; [left; now rewrite (tab_agree h h' q (A q (rt_refl _ _ _)))|]. right. apply IsValidTableNesting_iff in V; auto. apply IsValidTableNesting_iff; [auto|lia|].
  destruct V as [ND F]. unfold flat_nesting. rewrite (tab_agree h h' q (A q (rt_refl _ _ _))). split; [exact ND|]. intros r I. rewrite (tab_agree h h' r); [now apply F|]. apply (agree_nested h h' q r L A I). apply rt_refl.
Qed.
Lemma copyable_frame h h' : wf_heap h -> wf_heap h' -> List.length h <= List.length h' -> forall k q, q < List.length h -> agree_below h h' q -> copyable k h q -> copyable k h' q.
Proof.
  intros W W' LL. induction k as [|k IH]; intros q L A C; [exact C|]. intros r I. rewrite (tab_agree h h' q (A q (rt_refl _ _ _))) in I. destruct (C r I) as [G C'].
  pose proof (nested_lt h q r W I) as LR. pose proof (agree_nested h h' q r L A I) as AR. split; [exact (good_frame h h' r W W' LL LR AR G)|]. exact (IH r LR AR C').
Qed.

(** ---------- one cell ---------- *)

(** only the table at p has changed, among the old ones *)
Definition only (p : ptr) (h h' : heap) : Prop :=
  wf_heap h' /\ List.length h <= List.length h' /\ (forall r, r < List.length h -> r <> p -> nth_error h' r = nth_error h r).
Lemma only_trans p h1 h2 h3 : only p h1 h2 -> only p h2 h3 -> only p h1 h3.
Proof. intros (W1 & L1 & A1) (W2 & L2 & A2). split; [exact W2|]. split; [lia|]. intros r L N. rewrite A2 by (auto; lia). now apply A1. Qed.
Lemma only_refl p h : wf_heap h -> only p h h.
Proof. intros W. split; auto. Qed.

(** the table at p' of h' is a shallow copy of the table at q of h *)
Definition twin (h : heap) (q : ptr) (h' : heap) (p' : ptr) : Prop :=
  is_nil (tab h' p') = is_nil (tab h q) /\
  (if is_nil (tab h q) then rows (tab h' p') = []
   else tname (tab h' p') = tname (tab h q) /\ cnames (tab h' p') = cnames (tab h q) /\ ctypes (tab h' p') = ctypes (tab h q) /\ rows (tab h' p') = rows (tab h q)).

Lemma visit_plain i h sf x : ci_type i <> "*Table" -> copydeep_visit i (mkW h sf x) = (mkW h sf (ci_tab i), Ok tt).
Proof. intros N. unfold copydeep_visit. apply String.eqb_neq in N. rewrite N. reflexivity. Qed.

Lemma upd_put kc kr rs (row : list value) v : nth_error rs kr = Some row -> put kc kr v rs = upd rs kr (upd row kc v).
Proof. intros N. unfold put. now rewrite N. Qed.

Lemma set_new h1 p kc kr row (n : ptr) : wf_heap h1 -> p < List.length h1 -> n < List.length h1 -> n <> p ->
  nth_error (rows (tab h1 p)) kr = Some row -> nth_error (ctypes (tab h1 p)) kc = Some "*Table" ->
  exists h2, SetTableByColIndex p (Z.of_nat kc) (Z.of_nat kr) (Some n) h1 = (h2, Ok tt) /\ wf_heap h2 /\ List.length h2 = List.length h1 /\
    (forall r, r <> p -> r <> n -> nth_error h2 r = nth_error h1 r) /\
    tab h2 p = with_rows (upd (rows (tab h1 p)) kr (upd row kc (VTable (Some n)))) (tab h1 p) /\ tab h2 n = with_parent (Some p) (tab h1 n).
Proof.
  intros W LP LN NP R C. destruct (set_parent_wf n p h1 W LP) as [W1 L1].
  assert (NE : nth_error (set_parent n p h1) p = Some (tab h1 p)).
  { unfold set_parent. rewrite nth_error_upd_ne by auto. destruct (nth_error_lt h1 p LP) as [t T]. now rewrite (tab_nth _ _ _ T). }
  pose proof (tab_nth _ _ _ NE) as TP.
  assert (LC : kc < List.length (ctypes (tab h1 p))) by now apply nth_error_some_lt in C.
  assert (LR : kr < List.length (rows (tab h1 p))) by now apply nth_error_some_lt in R.
  destruct (tab_wf h1 p W) as [WT _].
  destruct (SetTByColIndex_eq "*Table" (Z.of_nat kc) (Z.of_nat kr) (VTable (Some n)) (mkS (tab h1 p) (List.length (set_parent n p h1)) [])) as [(ct & _ & _ & _ & _ & E)|[NO _]].
  - exact WT.
  - apply str_in_In. reflexivity.
  - reflexivity.
  - cbn [s_tab]. unfold ColCount. rewrite <- (wf_types_len _ WT). lia.
  - pose proof (SetTableByColIndex_wf p (Z.of_nat kc) (Z.of_nat kr) n h1 W LP LN) as [W2 L2].
    unfold SetTableByColIndex, on_heap in *. rewrite NE in *. rewrite E in *. unfold Proofs_Cells.written, on_tab in *. cbn [s_tab s_news s_base fst] in *. rewrite !Nat2Z.id in *.
    rewrite (upd_put _ _ _ _ _ R) in *. cbn [new_nils map] in *. rewrite app_nil_r in *.
    eexists. split; [reflexivity|]. split; [exact W2|]. split; [rewrite !upd_length; unfold set_parent; now rewrite upd_length|]. split; [|split].
    + intros r N1 N2. rewrite nth_error_upd_ne by congruence. unfold set_parent. now rewrite nth_error_upd_ne by congruence.
    + apply tab_nth. rewrite nth_error_upd_eq; [reflexivity|]. rewrite L1. exact LP.
    + apply tab_nth. rewrite nth_error_upd_ne by auto. unfold set_parent. now rewrite nth_error_upd_eq.
  - exfalso. apply NO. exists "*Table". split; [reflexivity|]. split; [cbn [s_tab]; unfold RowCount; lia|]. cbn [s_tab]. rewrite Nat2Z.id. split; [exact C|]. reflexivity.
Qed.

Lemma only_agree p h h' q : wf_heap h -> only p h h' -> q < List.length h -> ~ clos_refl_trans _ (nests h) q p -> agree_below h h' q.
Proof.
  intros W (_ & _ & A) L NP r R. apply A; [|intros ->; contradiction]. clear NP. apply clos_rt_rt1n in R. induction R as [q|q z r N R IH]; [exact L|]. apply IH. destruct (nests_tab _ _ _ N) as [_ I]. eapply nested_lt; eauto.
Qed.

Lemma visit_nested h sf x p n kc kr row (q : ptr) : wf_heap h -> p < List.length h ->
  nth_error (rows (tab h p)) kr = Some row -> nth_error (ctypes (tab h p)) kc = Some "*Table" -> nth_error row kc = Some (VTable (Some q)) ->
  (good h q /\ exists h2, copydeep_visit (mkCI p n "*Table" (Z.of_nat kc) (Z.of_nat kr)) (mkW h sf x) = (mkW h2 sf p, Ok tt) /\ only p h h2 /\ List.length h < List.length h2 /\
     tab h2 p = with_rows (upd (rows (tab h p)) kr (upd row kc (VTable (Some (List.length h))))) (tab h p) /\ twin h q h2 (List.length h))
  \/ (~ good h q /\ exists s, copydeep_visit (mkCI p n "*Table" (Z.of_nat kc) (Z.of_nat kr)) (mkW h sf x) = (s, Err)).
Proof.
  intros W L R C V. destruct (tab_wf h p W) as [WT _]. pose proof (GetTableByColIndex_at _ _ _ _ _ WT R C V) as G.
  assert (LQ : q < List.length h). { apply (nested_lt h p q W). apply In_nested_in. eauto. }
  destruct (tab_wf h q W) as [WQ PQ].
  assert (STEP : forall h1, wf_heap h1 -> List.length h < List.length h1 -> (forall r, r < List.length h -> nth_error h1 r = nth_error h r) -> twin h q h1 (List.length h) ->
    (if is_nil (tab h q) then new_tab (ret tt) h else Copy q h) = (h1, Ok (List.length h)) ->
    exists h2, copydeep_visit (mkCI p n "*Table" (Z.of_nat kc) (Z.of_nat kr)) (mkW h sf x) = (mkW h2 sf p, Ok tt) /\ only p h h2 /\ List.length h < List.length h2 /\
     tab h2 p = with_rows (upd (rows (tab h p)) kr (upd row kc (VTable (Some (List.length h))))) (tab h p) /\ twin h q h2 (List.length h)).
  { intros h1 W1 L1 A1 T1 E1. assert (TP : tab h1 p = tab h p) by (apply tab_agree; now apply A1).
    destruct (set_new h1 p kc kr row (List.length h)) as (h2 & E2 & W2 & L2 & A2 & P2 & N2); auto; try lia; try (rewrite TP; assumption).
    exists h2. split.
    - unfold copydeep_visit. cbn [ci_type ci_tab ci_col ci_row String.eqb Ascii.eqb Bool.eqb]. unfold wbind at 1. rewrite wbind_wtab. cbn [w_heap]. rewrite wbind_wlift, G. rewrite wbind_wtab. cbn [w_heap].
      destruct (is_nil (tab h q)); unfold wbind, wheap; cbn [w_heap w_safe w_x]; rewrite E1; cbn [w_heap w_safe w_x]; rewrite E2; reflexivity.
    - split; [|split; [lia|split]].
      + split; [exact W2|]. split; [lia|]. intros r LR NR. rewrite A2 by lia. now apply A1.
      + rewrite P2, TP. reflexivity.
      + unfold twin in *. rewrite N2. exact T1. }
  destruct (is_nil (tab h q)) eqn:NQ.
  - left. split; [now left|]. apply (STEP (h ++ [NewNilTable])).
    + destruct (new_tab_wf (ret tt) h W) as [X _]; [apply pres_ret|exact X].
    + rewrite app_length. cbn. lia.
    + intros r LR. now rewrite nth_error_app1.
    + unfold twin. rewrite NQ. rewrite (tab_nth (h ++ [NewNilTable]) (List.length h) NewNilTable) by (rewrite nth_error_app2, Nat.sub_diag by auto; reflexivity). split; reflexivity.
    + reflexivity.
  - destruct (IsValidTableNesting h q) as [[]| |] eqn:VN.
    + left. split; [now right|].
      destruct (Copy_body_spec (tab h q) (S (List.length h)) WQ) as [(_ & t' & l & EC & FT & C1 & C2 & C3)|[X _]]; [|congruence].
      assert (CE : Copy q h = (h ++ t' :: new_nils (List.length h) l, Ok (List.length h))).
      { unfold Copy, HasCircularReference. rewrite VN. unfold new_tab. rewrite EC. reflexivity. }
      pose proof (Copy_wf q h W) as [WC _]. rewrite CE in WC. cbn [fst] in WC.
      apply (STEP (h ++ t' :: new_nils (List.length h) l)); auto.
      * rewrite app_length. cbn. lia.
      * intros r LR. now rewrite nth_error_app1.
      * unfold twin. rewrite NQ. rewrite (tab_nth (h ++ t' :: new_nils (List.length h) l) (List.length h) t') by (rewrite nth_error_app2, Nat.sub_diag by auto; reflexivity).
        destruct FT. repeat split; auto.
    + right. split; [intros [X|X]; [congruence|rewrite X in VN; discriminate]|].
      exists (mkW h sf x). unfold copydeep_visit. cbn [ci_type ci_tab ci_col ci_row String.eqb Ascii.eqb Bool.eqb]. unfold wbind at 1. rewrite wbind_wtab. cbn [w_heap]. rewrite wbind_wlift, G. rewrite wbind_wtab. cbn [w_heap]. rewrite NQ.
      unfold wbind, wheap; cbn [w_heap w_safe w_x]. unfold Copy, HasCircularReference. rewrite VN. reflexivity.
    + exfalso. exact (IsValidTableNesting_no_panic h q W LQ VN).
Qed.

Lemma agree_reach h h' q r : agree_below h h' q -> clos_refl_trans _ (nests h') q r -> clos_refl_trans _ (nests h) q r.
Proof.
  intros A R. apply clos_rt_rtn1 in R. induction R as [|y z N R IH]; [apply rt_refl|]. apply rt_trans with y; [exact IH|]. apply rt_step.
  destruct N as (t & T & I). exists t. split; [|exact I]. rewrite <- T. symmetry. now apply A.
Qed.
Lemma good_dec h q : wf_heap h -> q < List.length h -> good h q \/ ~ good h q.
Proof.
  intros W L. unfold good. destruct (is_nil (tab h q)); [now left; left|]. pose proof (IsValidTableNesting_no_panic h q W L). destruct (IsValidTableNesting h q) as [[]| |]; [left; now right| |contradiction]. right. intros [X|X]; discriminate.
Qed.
Lemma good_back p h h' q : wf_heap h -> only p h h' -> p < List.length h -> q < List.length h -> is_nil (tab h' p) = is_nil (tab h p) -> In q (nested_in (rows (tab h' p))) ->
  good h' q -> good h q.
Proof.
  intros W (W' & LL & A) LP L NE I G. assert (TA : forall r, r < List.length h -> r <> p -> tab h' r = tab h r) by (intros; apply tab_agree; auto).
  destruct G as [N|V].
  - left. destruct (Nat.eq_dec q p) as [->|D]; [congruence|]. now rewrite <- TA.
  - right. apply IsValidTableNesting_iff in V; [|exact W'|lia]. apply IsValidTableNesting_iff; auto. destruct V as [ND F]. destruct (Nat.eq_dec q p) as [->|D].
    + inversion ND; subst. contradiction.
    + rewrite TA in ND, F by auto. split; [exact ND|]. intros r R. destruct (Nat.eq_dec r p) as [->|DR].
      * rewrite (F p R) in I. destruct I.
      * rewrite <- TA; auto. eapply nested_lt; eassumption.
Qed.

(** ---------- the loop over the cells of a row ---------- *)

Definition see (k : nat) (h : heap) (v : value) : seen_cell := match v with VTable (Some q) => Nested (sight_of k h q) | _ => Plain v end.
Definition fresh_list (h h' : heap) (l : list ptr) : Prop := StronglySorted lt l /\ Forall (fun r => List.length h <= r < List.length h') l.
Definition low (h : heap) (sf : list ptr) : Prop := Forall (fun q => q < List.length h) sf.

Lemma last_cell_app a b x : last_cell_table (a ++ b) x = last_cell_table b (last_cell_table a x).
Proof. apply fold_left_app. Qed.
Lemma sorted_app (a b : list nat) n : StronglySorted lt a -> StronglySorted lt b -> Forall (fun r => r < n) a -> Forall (fun r => n <= r) b -> StronglySorted lt (a ++ b).
Proof.
  intros SA SB FA FB. induction SA as [|x a SA IH F]; [exact SB|]. inversion FA; subst. cbn [app]. constructor; [now apply IH|]. apply Forall_app. split; [exact F|].
  eapply Forall_impl; [|exact FB]. cbn. intros. lia.
Qed.
Lemma fresh_app h1 h2 h3 a b : List.length h1 <= List.length h2 -> List.length h2 <= List.length h3 -> fresh_list h1 h2 a -> fresh_list h2 h3 b -> fresh_list h1 h3 (a ++ b).
Proof.
  intros L1 L2 [S1 F1] [S2 F2]. split.
  - apply (sorted_app a b (List.length h2) S1 S2); eapply Forall_impl; try eassumption; cbn; intros; lia.
  - apply Forall_app. split; eapply Forall_impl; try eassumption; cbn; intros; lia.
Qed.

Definition walkD (f : nat) (p : ptr) : W ptr unit := Walk f true (fun _ => wret tt) (fun _ _ => wret tt) copydeep_visit p.
Definition cellD (f : nat) (p : ptr) (ri ci : Z) : W ptr unit := cellbody ptr (fun _ => wret tt) (fun _ _ => wret tt) copydeep_visit f p ri ci.
Definition rowD (f : nat) (p : ptr) (ri : Z) : W ptr unit := rowbody ptr (fun _ => wret tt) (fun _ _ => wret tt) copydeep_visit f p ri.
Lemma walkD_S f p h sf x : walkD (S f) p (mkW h sf x) = wfor (zseq (List.length (rows (tab h p)))) (rowD f p) (mkW h sf x).
Proof. reflexivity. Qed.
Lemma rowD_eq f p ri h sf x : rowD f p ri (mkW h sf x) = wfor (zseq (List.length (cnames (tab h p)))) (cellD f p ri) (mkW h sf x).
Proof. reflexivity. Qed.

Definition deep_out (h : heap) (p : ptr) (x : ptr) (h' : heap) (sf' : list ptr) (x' : ptr) : Prop :=
  only p h h' /\ low h' sf' /\ (exists rs, tab h' p = with_rows rs (tab h p)) /\ same_sight h p h' p /\
  exists evs l, visits h' p evs /\ tables_of evs = p :: l /\ fresh_list h h' l /\ x' = last_cell_table evs x.
Definition P (k : nat) : Prop := forall f h p sf x, k <= f -> wf_heap h -> p < List.length h -> copyable k h p -> low h sf ->
  exists h' sf' x', walkD f p (mkW h sf x) = (mkW h' sf' x', Ok tt) /\ deep_out h p x h' sf' x'.

Lemma info_at p t kc kr n ct : nth_error (cnames t) kc = Some n -> nth_error (ctypes t) kc = Some ct ->
  GetCellInfoByColIndex p t (Z.of_nat kc) (Z.of_nat kr) = Ok (mkCI p n ct (Z.of_nat kc) (Z.of_nat kr)).
Proof.
  intros N C. unfold GetCellInfoByColIndex. rewrite znth_of_nat, C. unfold ColName, ColCount. apply nth_error_some_lt in N as L.
  destruct ((Z.of_nat kc <? 0) || (Z.of_nat kc >? Z.of_nat (List.length (cnames t)) - 1))%Z eqn:B; [lia|]. rewrite znth_of_nat, N. reflexivity.
Qed.

Lemma cell_plain f p kr kc h sf x n ct : nth_error (cnames (tab h p)) kc = Some n -> nth_error (ctypes (tab h p)) kc = Some ct -> ct <> "*Table" ->
  cellD f p (Z.of_nat kr) (Z.of_nat kc) (mkW h sf x) = (mkW h sf p, Ok tt).
Proof.
  intros N C NT. unfold cellD, cellbody. rewrite wbind_wtab. cbn [w_heap]. rewrite wbind_wlift, (info_at _ _ _ _ _ _ N C). unfold wbind at 1.
  rewrite visit_plain by exact NT. cbn [ci_type ci_tab]. apply String.eqb_neq in NT. rewrite NT. reflexivity.
Qed.

(** a nested cell: the nested table is replaced by a copy, and the copy is walked *)
Lemma cell_nested k f p kr kc h sf x n row (q : ptr) : P k -> k <= f -> wf_heap h -> p < List.length h ->
  nth_error (rows (tab h p)) kr = Some row -> nth_error (cnames (tab h p)) kc = Some n -> nth_error (ctypes (tab h p)) kc = Some "*Table" -> nth_error row kc = Some (VTable (Some q)) ->
  low h sf -> (good h q -> ~ clos_refl_trans _ (nests h) q p /\ copyable k h q) ->
  (good h q /\ exists h' sf' x' evs l, cellD f p (Z.of_nat kr) (Z.of_nat kc) (mkW h sf x) = (mkW h' sf' x', Ok tt) /\ only p h h' /\ low h' sf' /\
     tab h' p = with_rows (upd (rows (tab h p)) kr (upd row kc (VTable (Some (List.length h))))) (tab h p) /\ same_sight h q h' (List.length h) /\
     visits h' (List.length h) evs /\ tables_of evs = List.length h :: l /\ fresh_list h h' (List.length h :: l) /\ x' = last_cell_table evs p)
  \/ (~ good h q /\ exists s, cellD f p (Z.of_nat kr) (Z.of_nat kc) (mkW h sf x) = (s, Err)).
Proof.
  intros IH KF W LP R CN CT V LS GC. 
  assert (LQ : q < List.length h). { apply (nested_lt h p q W). apply In_nested_in. eauto. }
  destruct (visit_nested h sf x p n kc kr row q W LP R CT V) as [(G & h2 & E2 & O2 & L2 & T2 & TW)|(NG & s & E2)].
  2:{ right. split; [exact NG|]. exists s. unfold cellD, cellbody. rewrite wbind_wtab. cbn [w_heap]. rewrite wbind_wlift, (info_at _ _ _ _ _ _ CN CT). unfold wbind at 1. rewrite E2. reflexivity. }
  left. split; [exact G|]. destruct (GC G) as [NR CK]. pose proof O2 as (W2 & _ & A2).
  set (m := List.length h) in *.
  assert (AG : agree_below h h2 q) by (apply (only_agree p); auto).
  (* the copy holds the same *)
  assert (SS : same_sight h q h2 m).
  { intros lv. destruct lv as [|lv]; [reflexivity|]. cbn [sight_of]. cbv zeta. destruct TW as [TN TW]. rewrite TN. destruct (is_nil (tab h q)); [reflexivity|]. destruct TW as (-> & -> & -> & ->). f_equal.
    apply map_nested_ext; [intros v NV; destruct v as [| | | | | | |[z|]| |]; auto; now destruct (NV z)|].
    intros r I. cbn beta iota. f_equal. apply sight_frame; [exact W|eapply nested_lt; eassumption|]. exact (agree_nested h h2 q r LQ AG I). }
  assert (CM : copyable k h2 m).
  { destruct k as [|k]; [destruct CK|]. intros r I. destruct TW as [TN TW]. destruct (is_nil (tab h q)); [rewrite TW in I; destruct I|]. destruct TW as (_ & _ & _ & TR). rewrite TR in I.
    destruct (CK r I) as [G1 C1]. pose proof (agree_nested h h2 q r LQ AG I) as AR. pose proof (nested_lt h q r W I) as LR.
    split; [exact (good_frame h h2 r W W2 (Nat.lt_le_incl _ _ L2) LR AR G1)|exact (copyable_frame h h2 W W2 (Nat.lt_le_incl _ _ L2) k r LR AR C1)]. }
  assert (GT : GetTableByColIndex (tab h2 p) (Z.of_nat kc) (Z.of_nat kr) = Ok (Some m)).
  { destruct (tab_wf h2 p W2) as [WT _]. apply (GetTableByColIndex_at _ _ _ (upd row kc (VTable (Some m)))).
    - exact WT.
    - rewrite T2. cbn [rows ctypes with_rows]. apply nth_error_upd_eq. now apply nth_error_some_lt in R.
    - rewrite T2. exact CT.
    - apply nth_error_upd_eq. now apply nth_error_some_lt in V. }
  set (sf2 := if is_nil (tab h2 m) then sf else m :: sf).
  assert (LS2 : low h2 sf2).
  { assert (B : low h2 sf) by (eapply Forall_impl; [|exact LS]; cbn; intros; fold m in H; lia). unfold sf2. destruct (is_nil (tab h2 m)); [exact B|]. constructor; [exact L2|exact B]. }
  assert (EQ : cellD f p (Z.of_nat kr) (Z.of_nat kc) (mkW h sf x) = walkD f m (mkW h2 sf2 p)).
  { unfold cellD, cellbody. rewrite wbind_wtab. cbn [w_heap]. rewrite wbind_wlift, (info_at _ _ _ _ _ _ CN CT). unfold wbind at 1. rewrite E2. cbn [ci_type andb String.eqb Ascii.eqb Bool.eqb].
    rewrite wbind_wtab. cbn [w_heap]. rewrite wbind_wlift, GT, wbind_wtab. cbn [w_heap]. unfold sf2, wbind. destruct (is_nil (tab h2 m)); [reflexivity|]. cbn [w_safe].
    destruct (in_set m sf) eqn:IS; [|reflexivity]. exfalso. apply in_set_In in IS. pose proof (proj1 (Forall_forall _ _) LS m IS). cbn beta in H. unfold m in H. lia. }
  destruct (IH f h2 m sf2 p KF W2 L2 CM LS2) as (h' & sf' & x' & E3 & O3 & LS3 & (rs & T3) & SS3 & evs & l & VI & TB & FL & XE).
  pose proof O3 as (W3 & L3 & A3).
  exists h', sf', x', evs, l. split; [now rewrite EQ|].
  split. { split; [exact W3|]. split; [fold m; lia|]. intros r LR NRP. fold m in LR. rewrite A3 by lia. now apply A2. }
  split; [exact LS3|]. split. { rewrite <- T2. apply tab_agree. apply A3; fold m in LP; lia. }
  split. { intros lv. rewrite (SS3 lv). apply SS. }
  split; [exact VI|]. split; [exact TB|]. split; [|exact XE].
  destruct FL as [SL FL]. split.
  - constructor; [exact SL|]. eapply Forall_impl; [|exact FL]. cbn. intros. lia.
  - constructor; [fold m; lia|]. eapply Forall_impl; [|exact FL]. cbn. intros. fold m. lia.
Qed.

Lemma nested_in_row_cons v vs : nested_in [v :: vs] = match v with VTable (Some q) => q :: nested_in [vs] | _ => nested_in [vs] end.
Proof. unfold nested_in. cbn [flat_map]. rewrite !app_nil_r. destruct v as [| | | | | | |[z|]| |]; reflexivity. Qed.
Lemma nested_in_sub (v : list (list value)) rs : incl v rs -> incl (nested_in v) (nested_in rs).
Proof. intros I q Q. unfold nested_in in *. apply in_flat_map in Q as (r & R & Q). apply in_flat_map. exists r. auto. Qed.

Definition careful (k : nat) (p : ptr) (h : heap) (q : ptr) : Prop := good h q -> ~ clos_refl_trans _ (nests h) q p /\ copyable k h q.

(** what holds of the later cells still holds after an earlier one *)
Lemma careful_step k p h h' q : wf_heap h -> only p h h' -> p < List.length h -> q < List.length h -> is_nil (tab h' p) = is_nil (tab h p) -> In q (nested_in (rows (tab h' p))) ->
  careful k p h q -> careful k p h' q /\ (good h' q <-> good h q) /\ (good h q -> agree_below h h' q).
Proof.
  intros W O LP L NE I C. pose proof (good_back p h h' q W O LP L NE I) as GB. pose proof O as (W' & LL & A).
  assert (AG : good h q -> agree_below h h' q) by (intros G; destruct (C G) as [NR _]; now apply (only_agree p)).
  split; [|split; [split|]]; auto.
  - intros G'. pose proof (GB G') as G. destruct (C G) as [NR CK]. pose proof (AG G) as A1. split; [|exact (copyable_frame h h' W W' LL k q L A1 CK)]. intros R. apply NR. exact (agree_reach h h' q p A1 R).
  - intros G. exact (good_frame h h' q W W' LL L (AG G) G).
Qed.

Lemma not_reach_p p h h' (m : ptr) evs l : p < List.length h -> wf_heap h' -> List.length h <= m -> visits h' m evs -> tables_of evs = m :: l -> fresh_list h h' (m :: l) -> ~ clos_refl_trans _ (nests h') m p.
Proof.
  intros LP W' LM V T [_ F] R. apply (visits_tables h' m evs p W' V) in R. rewrite T in R. pose proof (proj1 (Forall_forall _ _) F p R) as X. cbn beta in X. lia.
Qed.

Lemma cells_deep k f p kr : P k -> k <= f -> forall todo kc h sf x row done ns cts,
  wf_heap h -> p < List.length h -> nth_error (rows (tab h p)) kr = Some row -> row = done ++ todo -> List.length done = kc ->
  ns = skipn kc (cnames (tab h p)) -> cts = skipn kc (ctypes (tab h p)) -> low h sf -> (forall q, In q (nested_in [todo]) -> careful k p h q) ->
  ((forall q, In q (nested_in [todo]) -> good h q) /\ exists h' sf' x' new evs l,
     wfor (map Z.of_nat (seq kc (List.length todo))) (cellD f p (Z.of_nat kr)) (mkW h sf x) = (mkW h' sf' x', Ok tt) /\ only p h h' /\ low h' sf' /\
     tab h' p = with_rows (upd (rows (tab h p)) kr (done ++ new)) (tab h p) /\ (forall lv, map (see lv h') new = map (see lv h) todo) /\ 
     (forall t, visits_cells h' p t (Z.of_nat kr) (Z.of_nat kc) ns cts new evs) /\ tables_of evs = l /\ fresh_list h h' l /\ x' = last_cell_table evs x)
  \/ ((exists q, In q (nested_in [todo]) /\ ~ good h q) /\ exists s, wfor (map Z.of_nat (seq kc (List.length todo))) (cellD f p (Z.of_nat kr)) (mkW h sf x) = (s, Err)).
Proof.
  intros IHk KF. induction todo as [|v todo IH]; intros kc h sf x row done ns cts W LP R RE LD NS CS LS CA.
  - left. split; [intros q []|]. exists h, sf, x, [], [], []. cbn [List.length seq map wfor].
    destruct (tab_wf h p W) as [WT _]. pose proof (Forall_nth_error _ _ _ _ (wf_cells _ WT) R) as F2. apply Forall2_len in F2. pose proof (wf_types_len _ WT) as TL. rewrite RE, app_nil_r in F2.
    assert (ns = []) by (rewrite NS; apply skipn_all2; lia). assert (cts = []) by (rewrite CS; apply skipn_all2; lia). subst ns cts. rewrite H, H0.
    split; [reflexivity|]. split; [now apply only_refl|]. split; [exact LS|]. split. { rewrite <- RE. rewrite upd_same by exact R. now destruct (tab h p). }
    split; [reflexivity|]. split; [intros; constructor|]. split; [reflexivity|]. split; [split; constructor|reflexivity].
  - destruct (tab_wf h p W) as [WT _]. pose proof (Forall_nth_error _ _ _ _ (wf_cells _ WT) R) as F2. pose proof (Forall2_len _ _ _ F2) as LEN. pose proof (wf_types_len _ WT) as TL.
    assert (LROW : List.length row = kc + S (List.length todo)) by (rewrite RE, app_length; cbn; lia).
    destruct (nth_error_lt (cnames (tab h p)) kc) as [n CN]; [lia|]. destruct (nth_error_lt (ctypes (tab h p)) kc) as [ct CT]; [lia|].
    assert (VV : nth_error row kc = Some v) by (rewrite RE, nth_error_app2 by lia; rewrite LD, Nat.sub_diag; reflexivity).
    rewrite (skipn_at _ _ _ CN) in NS. rewrite (skipn_at _ _ _ CT) in CS.
    assert (CELL : cell_ok ct v). { destruct (Forall2_nth _ _ _ _ _ F2 CT) as (v' & V' & C'). congruence. }
    cbn [List.length seq map]. rewrite wfor_cons. unfold wbind at 1 2.
    destruct (string_dec ct "*Table") as [->|NT].
    + (* a nested table *)
      destruct (table_value v) as [q ->]. { exact (proj1 CELL). }
      assert (IQ : In q (nested_in [VTable (Some q) :: todo])) by (rewrite nested_in_row_cons; now left).
      assert (INROWS : forall z, In z (nested_in [VTable (Some q) :: todo]) -> In z (nested_in (rows (tab h p)))).
      { intros z Z. apply In_nested_in in Z as (i & r & j & Hi & Hj). apply In_nested_in. exists kr, row, (kc + j). split; [exact R|]. destruct i as [|i]; [|destruct i; discriminate]. cbn in Hi. injection Hi as <-. rewrite RE, nth_error_app2 by lia. replace (kc + j - List.length done) with j by lia. exact Hj. }
      destruct (cell_nested k f p kr kc h sf x n row q IHk KF W LP R CN CT VV LS (CA q IQ)) as [(G & h1 & sf1 & x1 & evs1 & l1 & E1 & O1 & LS1 & T1 & SS1 & V1 & TB1 & FL1 & X1)|(NG & s & E1)].
      2:{ right. split; [exists q; auto|]. exists s. rewrite E1. reflexivity. }
      rewrite E1. pose proof O1 as (W1 & L1 & A1). set (m := List.length h) in *.
      assert (RU : upd row kc (VTable (Some m)) = (done ++ [VTable (Some m)]) ++ todo). { rewrite RE, <- LD, upd_app_mid, <- app_assoc. reflexivity. }
      assert (R1 : nth_error (rows (tab h1 p)) kr = Some (upd row kc (VTable (Some m)))). { rewrite T1. cbn [rows with_rows]. apply nth_error_upd_eq. now apply nth_error_some_lt in R. }
      assert (NE1 : is_nil (tab h1 p) = is_nil (tab h p)) by (rewrite T1; reflexivity).
      assert (IN1 : forall z, In z (nested_in [todo]) -> In z (nested_in (rows (tab h1 p)))).
      { intros z Z. apply In_nested_in in Z as (i & r & j & Hi & Hj). apply In_nested_in. exists kr, (upd row kc (VTable (Some m))), (S kc + j). split; [exact R1|]. destruct i as [|i]; [|destruct i; discriminate]. cbn in Hi. injection Hi as <-.
        rewrite RU, nth_error_app2 by (rewrite app_length; cbn; lia). rewrite app_length. cbn [List.length]. replace (S kc + j - (List.length done + 1)) with j by lia. exact Hj. }
      assert (STEP : forall z, In z (nested_in [todo]) -> careful k p h1 z /\ (good h1 z <-> good h z) /\ (good h z -> agree_below h h1 z)).
      { intros z Z. assert (IZ : In z (nested_in [VTable (Some q) :: todo])) by (rewrite nested_in_row_cons; now right).
        apply careful_step; auto. eapply nested_lt; [exact W|]. now apply INROWS. }
      destruct (IH (S kc) h1 sf1 x1 (upd row kc (VTable (Some m))) (done ++ [VTable (Some m)]) (skipn (S kc) (cnames (tab h p))) (skipn (S kc) (ctypes (tab h p)))) as [(GD & h' & sf' & x' & new & evs & l & E' & O' & LS' & T' & SE' & V' & TB' & FL' & X')|((z & Z & NG) & s & E')].
      * exact W1.
      * lia.
      * exact R1.
      * exact RU.
      * rewrite app_length. cbn. lia.
      * now rewrite T1.
      * now rewrite T1.
      * exact LS1.
      * intros z Z. now apply STEP.
      * left. split. { intros z Z. rewrite nested_in_row_cons in Z. destruct Z as [<-|Z]; [exact G|]. apply (STEP z Z). now apply GD. }
        pose proof O' as (W' & L' & A').
        assert (NRM : ~ clos_refl_trans _ (nests h1) m p) by (apply (not_reach_p p h h1 m evs1 l1); auto).
        assert (LM : m < List.length h1). { destruct FL1 as [_ F]. inversion F; subst. lia. }
        exists h', sf', x', (VTable (Some m) :: new), (ECell p n "*Table" (Z.of_nat kc) (Z.of_nat kr) :: evs1 ++ evs), ((m :: l1) ++ l).
        split; [exact E'|]. split; [exact (only_trans _ _ _ _ O1 O')|]. split; [exact LS'|].
        split. { rewrite T', T1. unfold with_rows. cbn [rows tname cnames ctypes cmap skeys struct_shape is_nil parent]. rewrite upd_upd, <- app_assoc. reflexivity. }
        split. { intros lv. cbn [map]. f_equal.
          - unfold see. f_equal. rewrite (sight_frame h1 h' lv W1 m LM); [apply SS1|]. now apply (only_agree p).
          - rewrite SE'. apply map_ext_in. intros v IV. destruct v as [| | | | | | |[z|]| |]; auto. unfold see. f_equal.
            assert (Z : In z (nested_in [todo])). { unfold nested_in. cbn [flat_map]. rewrite app_nil_r. apply in_flat_map. eexists. split; [exact IV|now left]. }
            destruct (STEP z Z) as (_ & GI & AG). apply sight_frame; [exact W| |apply AG; apply GI; now apply GD].
            eapply nested_lt; [exact W|]. apply INROWS. rewrite nested_in_row_cons. now right. }
        split. { intros t. rewrite NS, CS. apply vis_nested.
          - apply (proj1 (visits_frame h1 h')); [exact V1|]. intros r IR. apply A'; [|].
            + apply (visits_lt h1 m evs1 r V1 IR).
            + intros ->. rewrite TB1 in IR. destruct FL1 as [_ F]. pose proof (proj1 (Forall_forall _ _) F p IR) as B. cbn beta in B. unfold m in *. lia.
          - replace (Z.of_nat kc + 1)%Z with (Z.of_nat (S kc)) by lia. apply V'. }
        split. { cbn [tables_of flat_map app]. fold (tables_of (evs1 ++ evs)). rewrite tables_of_app, TB1, TB'. reflexivity. }
        split. { apply (fresh_app h h1 h'); auto. }
        cbn [last_cell_table fold_left]. fold (last_cell_table (evs1 ++ evs) p). rewrite last_cell_app, <- X1. exact X'.
      * right. split; [|exists s; exact E']. exists z. split; [rewrite nested_in_row_cons; now right|]. intros GZ. apply NG. now apply (STEP z Z).
    + (* another cell *)
      assert (NV : nested_in [v :: todo] = nested_in [todo]).
      { rewrite nested_in_row_cons. destruct v as [| | | | | | |[z|]| |]; auto. destruct CELL as [HT _]. cbn in HT. contradiction. }
      rewrite NV in *. rewrite (cell_plain f p kr kc h sf x n ct CN CT NT).
      destruct (IH (S kc) h sf p row (done ++ [v]) (skipn (S kc) (cnames (tab h p))) (skipn (S kc) (ctypes (tab h p)))) as [(GD & h' & sf' & x' & new & evs & l & E' & O' & LS' & T' & SE' & V' & TB' & FL' & X')|(B & s & E')]; auto.
      * now rewrite <- app_assoc.
      * rewrite app_length. cbn. lia.
      * left. split; [exact GD|]. exists h', sf', x', (v :: new), (ECell p n ct (Z.of_nat kc) (Z.of_nat kr) :: evs), l.
        split; [exact E'|]. split; [exact O'|]. split; [exact LS'|]. split; [rewrite T'; now rewrite <- app_assoc|].
        split. { intros lv. cbn [map]. f_equal; [|apply SE']. unfold see. destruct v as [| | | | | | |[z|]| |]; auto. destruct CELL as [HT _]. cbn in HT. contradiction. }
        split. { intros t. rewrite NS, CS. constructor; [exact NT|]. replace (Z.of_nat kc + 1)%Z with (Z.of_nat (S kc)) by lia. apply V'. }
        split; [exact TB'|]. split; [exact FL'|exact X'].
      * right. split; [exact B|]. exists s. exact E'.
Qed.

(** ---------- the loop over the rows, and the walk ---------- *)

Lemma rows_deep k f p : P k -> k <= f -> forall todo kr h sf x before,
  wf_heap h -> p < List.length h -> rows (tab h p) = before ++ todo -> List.length before = kr -> low h sf -> (forall q, In q (nested_in todo) -> careful k p h q) ->
  ((forall q, In q (nested_in todo) -> good h q) /\ exists h' sf' x' new evs l,
     wfor (map Z.of_nat (seq kr (List.length todo))) (rowD f p) (mkW h sf x) = (mkW h' sf' x', Ok tt) /\ only p h h' /\ low h' sf' /\
     tab h' p = with_rows (before ++ new) (tab h p) /\ (forall lv, map (map (see lv h')) new = map (map (see lv h)) todo) /\ 
     (forall t, cnames t = cnames (tab h p) -> ctypes t = ctypes (tab h p) -> visits_rows h' p t (Z.of_nat kr) new evs) /\ tables_of evs = l /\ fresh_list h h' l /\ x' = last_cell_table evs x)
  \/ ((exists q, In q (nested_in todo) /\ ~ good h q) /\ exists s, wfor (map Z.of_nat (seq kr (List.length todo))) (rowD f p) (mkW h sf x) = (s, Err)).
Proof.
  intros IHk KF. induction todo as [|row todo IH]; intros kr h sf x before W LP R LB LS CA.
  - left. split; [intros q []|]. exists h, sf, x, [], [], []. cbn [List.length seq map wfor].
    split; [reflexivity|]. split; [now apply only_refl|]. split; [exact LS|]. split. { rewrite <- R. now destruct (tab h p). }
    split; [reflexivity|]. split; [intros; constructor|]. split; [reflexivity|]. split; [split; constructor|reflexivity].
  - destruct (tab_wf h p W) as [WT _].
    assert (RR : nth_error (rows (tab h p)) kr = Some row) by (rewrite R, nth_error_app2 by lia; rewrite LB, Nat.sub_diag; reflexivity).
    pose proof (Forall_nth_error _ _ _ _ (wf_cells _ WT) RR) as F2. pose proof (Forall2_len _ _ _ F2) as LEN. pose proof (wf_types_len _ WT) as TL.
    cbn [List.length seq map]. rewrite wfor_cons. unfold wbind at 1 2. rewrite rowD_eq. unfold zseq. replace (List.length (cnames (tab h p))) with (List.length row) by lia.
    assert (IN0 : forall z, In z (nested_in (row :: todo)) <-> In z (nested_in [row]) \/ In z (nested_in todo)) by (intros z; rewrite nested_in_cons; apply in_app_iff).
    destruct (cells_deep k f p kr IHk KF row 0 h sf x row [] (cnames (tab h p)) (ctypes (tab h p))) as [(G & h1 & sf1 & x1 & new1 & evs1 & l1 & E1 & O1 & LS1 & T1 & SE1 & V1 & TB1 & FL1 & X1)|((q & Q & NG) & s & E1)]; auto.
    { intros q Q. apply CA. apply IN0. now left. }
    2:{ right. split; [exists q; split; [apply IN0; now left|exact NG]|]. exists s. rewrite E1. reflexivity. }
    rewrite E1. pose proof O1 as (W1 & L1 & A1).
    assert (R1 : rows (tab h1 p) = (before ++ [new1]) ++ todo). { rewrite T1. cbn [rows with_rows app]. rewrite R, <- LB, upd_app_mid, <- app_assoc. reflexivity. }
    assert (NE1 : is_nil (tab h1 p) = is_nil (tab h p)) by (rewrite T1; reflexivity).
    assert (STEP : forall z, In z (nested_in todo) -> careful k p h1 z /\ (good h1 z <-> good h z) /\ (good h z -> agree_below h h1 z)).
    { intros z Z. apply careful_step; auto.
      - apply (nested_lt h p z W). rewrite R. revert Z. apply nested_in_sub. intros r I. apply in_or_app. right. now right.
      - rewrite R1. revert Z. apply nested_in_sub. intros r I. apply in_or_app. now right.
      - apply CA. apply IN0. now right. }
    destruct (IH (S kr) h1 sf1 x1 (before ++ [new1])) as [(GD & h' & sf' & x' & new & evs & l & E' & O' & LS' & T' & SE' & V' & TB' & FL' & X')|((z & Z & NG) & s & E')].
    + exact W1.
    + lia.
    + exact R1.
    + rewrite app_length. cbn. lia.
    + exact LS1.
    + intros z Z. now apply STEP.
    + left. split. { intros z Z. apply IN0 in Z as [Z|Z]; [now apply G|]. apply (STEP z Z). now apply GD. }
      pose proof O' as (W' & L' & A').
      assert (V1' : forall t, visits_cells h' p t (Z.of_nat kr) 0 (cnames (tab h p)) (ctypes (tab h p)) new1 evs1).
      { intros t. apply (proj2 (proj2 (visits_frame h1 h'))); [apply V1|]. intros r IR. rewrite TB1 in IR. destruct FL1 as [_ F]. pose proof (proj1 (Forall_forall _ _) F r IR) as B. cbn beta in B. apply A'; lia. }
      exists h', sf', x', (new1 :: new), (ERow p (Z.of_nat kr) :: evs1 ++ evs), (l1 ++ l).
      split; [exact E'|]. split; [exact (only_trans _ _ _ _ O1 O')|]. split; [exact LS'|].
      split. { rewrite T', T1. unfold with_rows. cbn [rows tname cnames ctypes cmap skeys struct_shape is_nil parent]. rewrite <- app_assoc. reflexivity. }
      split. { intros lv. cbn [map]. f_equal.
        - rewrite <- SE1. apply map_ext_in. intros v IV. destruct v as [| | | | | | |[z|]| |]; auto. unfold see. f_equal.
          assert (Z : nests h1 p z). { apply tab_nests; [lia|]. apply In_nested_in. apply In_nth_error in IV as [j J]. exists kr, new1, j. split; [|exact J]. rewrite R1, <- app_assoc, nth_error_app2 by lia. rewrite LB, Nat.sub_diag. reflexivity. }
          assert (VZ : exists qe, visits h1 z qe /\ incl qe evs1). { apply In_nth_error in IV as [j J].
            assert (LN : List.length new1 = List.length (ctypes (tab h p))). { destruct (tab_wf h1 p W1) as [WT1 _]. assert (N1 : nth_error (rows (tab h1 p)) kr = Some new1) by (rewrite R1, <- app_assoc, nth_error_app2 by lia; rewrite LB, Nat.sub_diag; reflexivity).
              pose proof (Forall_nth_error _ _ _ _ (wf_cells _ WT1) N1) as F3. apply Forall2_len in F3. rewrite T1 in F3. cbn [ctypes with_rows] in F3. lia. }
            assert (JL : j < List.length new1) by now apply nth_error_some_lt in J. destruct (nth_error_lt (ctypes (tab h p)) j) as [ct CT]; [lia|]. destruct (nth_error_lt (cnames (tab h p)) j) as [n CN]; [lia|].
            destruct (visits_cells_at h1 p (tab h p) (Z.of_nat kr) j n ct (VTable (Some z)) _ _ _ _ _ (V1 (tab h p)) CN CT J) as [_ HT].
            assert (ct = "*Table"). { destruct (tab_wf h1 p W1) as [WT1 _]. assert (N1 : nth_error (rows (tab h1 p)) kr = Some new1) by (rewrite R1, <- app_assoc, nth_error_app2 by lia; rewrite LB, Nat.sub_diag; reflexivity).
              pose proof (Forall_nth_error _ _ _ _ (wf_cells _ WT1) N1) as F3. rewrite T1 in F3. cbn [ctypes with_rows] in F3. destruct (Forall2_nth _ _ _ _ _ F3 CT) as (v' & V2 & [C2 _]). rewrite J in V2. injection V2 as <-. exact C2. }
            destruct (HT H) as (z' & qe & E & VQ & IQ). injection E as <-. exists qe. auto. }
          destruct VZ as (qe & VQ & IQ). apply sight_frame; [exact W1|destruct (nests_tab _ _ _ Z); eapply nested_lt; eauto|]. apply (only_agree p); auto; [destruct (nests_tab _ _ _ Z); eapply nested_lt; eauto|].
          intros RP. apply (visits_tables h1 z qe p W1 VQ) in RP. assert (IP : In p (tables_of evs1)). { unfold tables_of in *. apply in_flat_map in RP as (e & IE & PE). apply in_flat_map. exists e. auto. }
          rewrite TB1 in IP. destruct FL1 as [_ F]. pose proof (proj1 (Forall_forall _ _) F p IP) as B. cbn beta in B. lia.
        - rewrite SE'. apply map_nested_ext; [intros v NV; destruct v as [| | | | | | |[z|]| |]; auto; now destruct (NV z)|]. intros z Z. unfold see. f_equal. destruct (STEP z Z) as (_ & GI & AG).
          apply sight_frame; [exact W| |apply AG; apply GI; now apply GD]. apply (nested_lt h p z W). rewrite R. revert Z. apply nested_in_sub. intros r I. apply in_or_app. right. now right. }
      split. { intros t TN TT. constructor; [rewrite TN, TT; apply V1'|]. replace (Z.of_nat kr + 1)%Z with (Z.of_nat (S kr)) by lia. apply V'; [now rewrite TN, T1|now rewrite TT, T1]. }
      split. { cbn [tables_of flat_map app]. fold (tables_of (evs1 ++ evs)). rewrite tables_of_app, TB1, TB'. reflexivity. }
      split. { apply (fresh_app h h1 h'); auto. }
      cbn [last_cell_table fold_left]. fold (last_cell_table (evs1 ++ evs) x). rewrite last_cell_app, <- X1. exact X'.
    + right. split; [|exists s; exact E']. exists z. split; [apply IN0; now right|]. intros GZ. apply NG. now apply (STEP z Z).
Qed.

(** A whole walk: all good, or an error. *)
Lemma walk_deep k f h p sf x : P k -> k <= f -> wf_heap h -> p < List.length h -> low h sf -> (forall q, In q (nested_in (rows (tab h p))) -> careful k p h q) ->
  ((forall q, In q (nested_in (rows (tab h p))) -> good h q) /\ exists h' sf' x', walkD (S f) p (mkW h sf x) = (mkW h' sf' x', Ok tt) /\ deep_out h p x h' sf' x')
  \/ ((exists q, In q (nested_in (rows (tab h p))) /\ ~ good h q) /\ exists s, walkD (S f) p (mkW h sf x) = (s, Err)).
Proof.
  intros IHk KF W LP LS CA. rewrite walkD_S. unfold zseq.
  destruct (rows_deep k f p IHk KF (rows (tab h p)) 0 h sf x [] W LP eq_refl eq_refl LS CA) as [(G & h' & sf' & x' & new & evs & l & E & O & LS' & T & SE & V & TB & FL & X)|B]; [|now right].
  left. split; [exact G|]. exists h', sf', x'. split; [exact E|]. split; [exact O|]. split; [exact LS'|]. split; [eexists; exact T|]. pose proof O as (W' & L' & _). split.
  - intros lv. destruct lv as [|lv]; [reflexivity|]. cbn [sight_of]. cbv zeta. rewrite T. cbn [with_rows is_nil tname cnames ctypes rows app]. destruct (is_nil (tab h p)); [reflexivity|]. f_equal. exact (SE lv).
  - exists (ETable p :: evs), l. split. { apply (vis_table _ p (tab h' p)). 
      - destruct (nth_error_lt h' p) as [t N]; [lia|]. now rewrite (tab_nth _ _ _ N).
      - rewrite T at 2. cbn [rows with_rows app]. apply V; now rewrite T. }
    split; [cbn [tables_of flat_map app]; fold (tables_of evs); now rewrite TB|]. split; [exact FL|exact X].
Qed.

Lemma P_all : forall k, P k.
Proof.
  induction k as [|k IH]; intros f h p sf x KF W LP C LS; [destruct C|]. destruct f as [|f]; [lia|].
  destruct (walk_deep k f h p sf x IH ltac:(lia) W LP LS) as [(_ & R)|((q & Q & NG) & _)]; [|exact R|].
  - intros q Q G. destruct (C q Q) as [_ CK]. split; [|exact CK]. intros RP. apply (copyable_acyclic h k q CK). apply clos_rt_t with p; [exact RP|]. apply t_step. now apply tab_nests.
  - destruct (C q Q) as [G _]. contradiction.
Qed.
