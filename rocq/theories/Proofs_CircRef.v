(** Proofs_CircRef.v -- the errors of IsValidTableNesting. *)
From Coq Require Import ZArith NArith List String Ascii Bool Lia.
From Verif Require Import Base Model_Names Model_Table Model_Sort Model_Copy Model_Merge Model_Ops Model_Heap Model_CircRef.
From Verif Require Import Spec Spec_Sort Spec_Heap Spec_Walk Spec_CircRef.
From Verif Require Import Proofs_Lib Proofs_Table Proofs_Cells Proofs_Api Proofs_Pres Proofs_Heap Proofs_Walk Proofs_Nesting.
Import ListNotations.
Local Open Scope string_scope.
Local Open Scope list_scope.

(** ---------- a walk with more state does the same ---------- *)
Section Sim.
Context {X Y : Type} (f : Y -> X).
Definition fst_w (s : wst Y) : wst X := mkW (w_heap s) (w_safe s) (f (w_x s)).
Definition sim {A} (m : W Y A) (n : W X A) : Prop := forall s, n (fst_w s) = (fst_w (fst (m s)), snd (m s)).
Lemma sim_ret {A} (a : A) : sim (wret a) (wret a). Proof. intros s. reflexivity. Qed.
Lemma sim_lift {A} (r : res A) : sim (wlift r) (wlift r). Proof. intros s. reflexivity. Qed.
Lemma sim_tab p : sim (wtab p) (wtab p). Proof. intros s. reflexivity. Qed.
Lemma sim_bind {A B} (m : W Y A) n (k : A -> W Y B) k' : sim m n -> (forall a, sim (k a) (k' a)) -> sim (wbind m k) (wbind n k').
Proof.
  intros M K s. unfold wbind. rewrite (M s). destruct (m s) as [s' [a| |]]; simpl; auto. apply K.
Qed.
Lemma sim_for {A} (l : list A) (b : A -> W Y unit) b' : (forall a, sim (b a) (b' a)) -> sim (wfor l b) (wfor l b').
Proof. intros H. induction l as [|a l IH]; simpl; [apply sim_ret|]. apply sim_bind; auto. Qed.
Lemma sim_walk fuel vT vR vC vT' vR' vC' : (forall p, sim (vT p) (vT' p)) -> (forall p r, sim (vR p r) (vR' p r)) -> (forall i, sim (vC i) (vC' i)) ->
  forall p, sim (Walk fuel true vT vR vC p) (Walk fuel true vT' vR' vC' p).
Proof.
  intros HT HR HC. induction fuel as [|fuel IH]; intros p; [apply sim_lift|]. cbn [Walk].
  apply sim_bind; auto. intros _. apply sim_bind; [apply sim_tab|]. intros t.
  apply sim_for. intros ri. apply sim_bind; auto. intros _. apply sim_bind; [apply sim_tab|]. intros t'.
  apply sim_for. intros ci. apply sim_bind; [apply sim_tab|]. intros t2. apply sim_bind; [apply sim_lift|]. intros info.
  apply sim_bind; auto. intros _. destruct (true && (ci_type info =? "*Table")); [|apply sim_ret].
  apply sim_bind; [apply sim_tab|]. intros t3. apply sim_bind; [apply sim_lift|]. intros [q|]; [|apply sim_lift].
  apply sim_bind; [apply sim_tab|]. intros tq. apply sim_bind; [|intros _; apply IH].
  destruct (is_nil tq); [apply sim_ret|]. intros s. unfold fst_w. simpl. now destruct (in_set q (w_safe s)).
Qed.
End Sim.

Lemma err_sim root i : sim fst (nesting_visit_err root i) (nesting_visit root i).
Proof.
  unfold nesting_visit_err, nesting_visit. destruct (ci_type i =? "*Table"); [|apply sim_ret].
  apply sim_bind; [apply sim_tab|]. intros t s. unfold wbind, wlift.
  destruct (GetTableByColIndex t (ci_col i) (ci_row i)) as [[q|]| |]; simpl; auto.
  unfold fst_w; simpl. now destruct (in_set q (fst (w_x s))).
Qed.

Lemma err_iff h (p : ptr) : IsValidTableNesting_err h p = None <-> IsValidTableNesting h p = Ok tt.
Proof.
  unfold IsValidTableNesting_err, IsValidTableNesting.
  pose proof (sim_walk fst (walk_fuel h) (fun _ => wret tt) (fun _ _ => wret tt) (nesting_visit_err p) (fun _ => wret tt) (fun _ _ => wret tt) (nesting_visit p)
     (fun _ => sim_ret fst tt) (fun _ _ => sim_ret fst tt) (err_sim p) p (mkW h [] ([p], None))) as S.
  unfold fst_w in S; cbn [w_heap w_safe w_x fst] in S. rewrite S. cbn [snd].
  destruct (Walk (walk_fuel h) true _ _ (nesting_visit_err p) p (mkW h [] ([p], None))) as [s [[]| |]]; simpl; split; congruence.
Qed.

(** ---------- what the error can be ---------- *)
Section Keeps.
Context {X : Type} (h : heap) (I J : X -> Prop).
Hypothesis IJ : forall x, I x -> J x.
Definition keeps {A} (m : W X A) : Prop := forall sf x, I x ->
  exists sf' x' r, m (mkW h sf x) = (mkW h sf' x', r) /\ J x' /\ (forall a, r = Ok a -> I x').
Lemma keeps_ret {A} (a : A) : keeps (wret a). Proof. intros sf x i. exists sf, x, (Ok a). split; auto. Qed.
Lemma keeps_lift {A} (r : res A) : keeps (wlift r). Proof. intros sf x i. exists sf, x, r. split; auto. Qed.
Lemma keeps_tab p : keeps (wtab p). Proof. intros sf x i. exists sf, x, (Ok (tab h p)). split; auto. Qed.
Lemma keeps_bind {A B} (m : W X A) (k : A -> W X B) : keeps m -> (forall a, keeps (k a)) -> keeps (wbind m k).
Proof.
  intros M K sf x i. destruct (M sf x i) as (sf' & x' & r & E & j & i'). unfold wbind. rewrite E.
  destruct r as [a| |]; [apply K, (i' a); auto| |]; exists sf', x'; eexists; (split; [reflexivity|]); split; auto; discriminate.
Qed.
Lemma keeps_for {A} (l : list A) (b : A -> W X unit) : (forall a, keeps (b a)) -> keeps (wfor l b).
Proof. intros H. induction l as [|a l IH]; simpl; [apply keeps_ret|]. apply keeps_bind; auto. Qed.
Lemma keeps_walk fuel vT vR vC : (forall p, keeps (vT p)) -> (forall p r, keeps (vR p r)) -> (forall i, keeps (vC i)) ->
  forall p, keeps (Walk fuel true vT vR vC p).
Proof.
  intros HT HR HC. induction fuel as [|fuel IH]; intros p; [apply keeps_lift|]. cbn [Walk].
  apply keeps_bind; auto. intros _. apply keeps_bind; [apply keeps_tab|]. intros t.
  apply keeps_for. intros ri. apply keeps_bind; auto. intros _. apply keeps_bind; [apply keeps_tab|]. intros t'.
  apply keeps_for. intros ci. apply keeps_bind; [apply keeps_tab|]. intros t2. apply keeps_bind; [apply keeps_lift|]. intros info.
  apply keeps_bind; auto. intros _. destruct (true && (ci_type info =? "*Table")); [|apply keeps_ret].
  apply keeps_bind; [apply keeps_tab|]. intros t3. apply keeps_bind; [apply keeps_lift|]. intros [q|]; [|apply keeps_lift].
  apply keeps_bind; [apply keeps_tab|]. intros tq. apply keeps_bind; [|intros _; apply IH].
  destruct (is_nil tq); [apply keeps_ret|]. intros sf x i. simpl.
  destruct (in_set q sf); [exists sf, x, Err|exists (q :: sf), x, (Ok tt)]; split; auto.
Qed.
End Keeps.

Definition circ_error (h : heap) (p q : ptr) : error := Wrap "IsValidTableNesting()" (Circ (NewCircRefError h (Some p) (Some q) "")).

Lemma GetTable_nested t c r q : wf_table t -> GetTableByColIndex t c r = Ok (Some q) -> In q (nested_in (rows t)).
Proof.
  intros W E. destruct (GetTableByColIndex_eq t c r W) as [(kc & kr & row & q' & -> & -> & Hr & Ht & Hv & E')|E']; [|congruence].
  rewrite E' in E. injection E as ->. apply In_nested_in. exists kr, row, kc. auto.
Qed.

Lemma err_keeps h (p : ptr) : wf_heap h -> p < List.length h -> forall i,
  keeps h (fun x : list ptr * option error => snd x = None)
          (fun x => snd x = None \/ snd x = Some Other \/ exists q, In q (nested_in (rows (tab h p))) /\ snd x = Some (circ_error h p q))
          (nesting_visit_err p i).
Proof.
  intros WH L i sf x N. unfold nesting_visit_err. destruct (ci_type i =? "*Table").
  2: { exists sf, x, (Ok tt). split; auto. }
  rewrite wbind_wtab. cbn [w_heap]. destruct (nth_error_lt h p L) as [t Hp].
  assert (W : wf_table (tab h p)) by (rewrite (tab_nth _ _ _ Hp); apply (Forall_nth_error _ _ _ _ (wh_tables _ WH) Hp)).
  destruct (GetTableByColIndex (tab h p) (ci_col i) (ci_row i)) as [[q|]| |] eqn:E.
  - cbn [w_x w_safe w_heap]. destruct (in_set q (fst x)).
    + exists sf. eexists. exists Err. split; [reflexivity|]. split; [|discriminate]. right. right. exists q. split; auto. eapply GetTable_nested; eauto.
    + exists sf. eexists. exists (Ok tt). split; [reflexivity|]. simpl. split; auto.
  - exists sf, x, Panic. split; [reflexivity|]. split; [now left|discriminate].
  - exists sf. eexists. exists Err. split; [reflexivity|]. split; [|discriminate]. simpl. auto.
  - exists sf, x, Panic. split; [reflexivity|]. split; [now left|discriminate].
Qed.

Lemma err_cases h (p : ptr) e : wf_heap h -> p < List.length h -> IsValidTableNesting_err h p = Some e ->
  e = Other \/ exists q, In q (nested_in (rows (tab h p))) /\ e = circ_error h p q.
Proof.
  intros WH L. unfold IsValidTableNesting_err.
  destruct (keeps_walk h (fun x : list ptr * option error => snd x = None)
          (fun x => snd x = None \/ snd x = Some Other \/ exists q, In q (nested_in (rows (tab h p))) /\ snd x = Some (circ_error h p q))
          (fun x H => or_introl H) (walk_fuel h) (fun _ => wret tt) (fun _ _ => wret tt) (nesting_visit_err p)
          (fun _ => keeps_ret h _ _ (fun x H => or_introl H) tt) (fun _ _ => keeps_ret h _ _ (fun x H => or_introl H) tt) (err_keeps h p WH L) p [] ([p], None) eq_refl)
    as (sf & x & r & E & J & I). rewrite E. cbn [w_x].
  destruct r as [u| |]; [discriminate| |]; intros H; injection H as <-; destruct J as [->|[->|(q & Q & ->)]]; eauto.
Qed.

(** ---------- nested tables that nest no tables ---------- *)
Definition nve (h : heap) (root : ptr) : visitor (list ptr * option error) cell_info := fun i x =>
  if ci_type i =? "*Table" then
    match GetTableByColIndex (tab h root) (ci_col i) (ci_row i) with
    | Ok (Some q) => if in_set q (fst x) then ((fst x, Some (circ_error h root q)), Err) else ((q :: fst x, snd x), Ok tt)
    | Ok None => (x, Panic) | Err => ((fst x, Some Other), Err) | Panic => (x, Panic)
    end
  else (x, Ok tt).
Lemma nve_eq h root i sf x : nesting_visit_err root i (mkW h sf x) = (mkW h sf (fst (nve h root i x)), snd (nve h root i x)).
Proof.
  unfold nesting_visit_err, nve. destruct (ci_type i =? "*Table"); [|reflexivity]. rewrite wbind_wtab. cbn [w_heap].
  destruct (GetTableByColIndex (tab h root) (ci_col i) (ci_row i)) as [[q|]| |]; auto. cbn [w_x w_safe w_heap]. now destruct (in_set q (fst x)).
Qed.

Section Shallow.
Variable h : heap.
Hypothesis WH : wf_heap h.
Variable p : ptr.
Let X := (list ptr * option error)%type.
Let vT : ptr -> W X unit := fun _ => wret tt.
Let vR : ptr -> Z -> W X unit := fun _ _ => wret tt.
Let vC := nesting_visit_err p.
Let cells := cellbody X vT vR vC.
Let rowsb := rowbody X vT vR vC.

Lemma S_HT a sf x : vT a (mkW h sf x) = (mkW h sf (fst (@nop X ptr a x)), snd (@nop X ptr a x)). Proof. reflexivity. Qed.
Lemma S_HR a r sf x : vR a r (mkW h sf x) = (mkW h sf (fst (@nop X (ptr * Z) (a, r) x)), snd (@nop X (ptr * Z) (a, r) x)). Proof. reflexivity. Qed.

Lemma leaf q fuel sf x : q < List.length h -> nested_in (rows (tab h q)) = [] -> 1 <= fuel ->
  Walk fuel true vT vR vC q (mkW h sf x) = (mkW h sf x, Ok tt).
Proof.
  intros L N F. destruct fuel as [|fuel]; [lia|]. rewrite (Walk_S h X nop vT vR vC S_HT). cbn [nop].
  destruct (nth_error_lt h q L) as [t Hq]. rewrite (tab_nth _ _ _ Hq) in *.
  assert (W : wf_table t) by apply (Forall_nth_error _ _ _ _ (wh_tables _ WH) Hq).
  assert (R : forall rs, (forall r, In r rs -> exists kr, r = Z.of_nat kr /\ kr < List.length (rows t)) -> wfor rs (rowbody X vT vR vC fuel q) (mkW h sf x) = (mkW h sf x, Ok tt)).
  { induction rs as [|r rs IH]; intros H; [reflexivity|]. rewrite wfor_cons. unfold wbind.
    rewrite (rowbody_eq h X nop vT vR vC S_HR). cbn [nop]. rewrite (tab_nth _ _ _ Hq).
    destruct (H r (or_introl eq_refl)) as (kr & -> & LR). destruct (nth_error_lt (rows t) kr LR) as [row Hr].
    assert (C : forall cs, (forall c, In c cs -> exists kc, c = Z.of_nat kc /\ kc < List.length (cnames t)) ->
                  wfor cs (cellbody X vT vR vC fuel q (Z.of_nat kr)) (mkW h sf x) = (mkW h sf x, Ok tt)).
    { induction cs as [|c cs IHc]; intros Hc; [reflexivity|]. rewrite wfor_cons. unfold wbind.
      destruct (Hc c (or_introl eq_refl)) as (kc & -> & LC). destruct (nth_error_lt (cnames t) kc LC) as [n Hn].
      destruct (nth_error_lt (ctypes t) kc) as [ct Ht]; [rewrite (wf_types_len _ W); exact LC|].
      pose proof (Forall_nth_error _ _ _ _ (wf_cells _ W) Hr) as FC. destruct (Forall2_nth _ _ _ _ _ FC Ht) as (v & Hv & _).
      destruct (cellbody_eq h WH X nop nop (nve h p) vT vR vC S_HT S_HR (nve_eq h p) fuel q t kr kc row n ct v sf x Hq Hr Hn Ht Hv) as [[NE E]|(q' & _ & -> & _)].
      - rewrite E. unfold nve at 1 2. cbn [ci_type]. destruct (String.eqb_spec ct "*Table"); [contradiction|]. cbn [fst snd].
        apply IHc. intros c' I. apply Hc. now right.
      - exfalso. assert (In q' (nested_in (rows t))) as I by (apply In_nested_in; exists kr, row, kc; auto). now rewrite N in I. }
    rewrite C; [apply IH; intros r' I; apply H; now right|].
    intros c I. unfold zseq in I. apply in_map_iff in I as (kc & <- & I). apply in_seq in I. exists kc. split; auto. lia. }
  apply R. intros r I. unfold zseq in I. apply in_map_iff in I as (kr & <- & I). apply in_seq in I. exists kr. split; auto. lia.
Qed.

(** From the tables seen so far, going over the cells with the nested tables l. *)
Definition scans (l seen : list ptr) (o : wst X * res unit) : Prop :=
  (exists sf, o = (mkW h sf (rev l ++ seen, None), Ok tt) /\ NoDup (rev l ++ seen) /\ incl sf (rev l ++ seen))
  \/ exists b q a sf x, l = b ++ q :: a /\ o = (mkW h sf (x, Some (circ_error h p q)), Err) /\ NoDup (rev b ++ seen) /\ In q (rev b ++ seen).
Lemma scans_nil seen sf : NoDup seen -> incl sf seen -> scans [] seen (mkW h sf (seen, None), Ok tt).
Proof. intros N I. left. exists sf. simpl. auto. Qed.
Lemma scans_seq l1 l2 seen sf (m k : W X unit) : scans l1 seen (m (mkW h sf (seen, None))) ->
  (forall sf', NoDup (rev l1 ++ seen) -> incl sf' (rev l1 ++ seen) -> scans l2 (rev l1 ++ seen) (k (mkW h sf' (rev l1 ++ seen, None)))) ->
  scans (l1 ++ l2) seen (wbind m (fun _ => k) (mkW h sf (seen, None))).
Proof.
  intros [(sf' & E & N & I)|(b & q & a & sf' & x & -> & E & N & I)] K; unfold wbind; rewrite E.
  - destruct (K sf' N I) as [(sf2 & E2 & N2 & I2)|(b & q & a & sf2 & x & -> & E2 & N2 & I2)].
    + left. exists sf2. rewrite rev_app_distr, <- app_assoc. auto.
    + right. exists (l1 ++ b), q, a, sf2, x. rewrite rev_app_distr, <- !app_assoc. auto.
  - right. exists b, q, (a ++ l2), sf', x. rewrite <- app_assoc. auto.
Qed.

Variable t : table.
Hypothesis Hp : nth_error h p = Some t.
Hypothesis SH : forall q, In q (nested_in (rows t)) -> q <> p -> nested_in (rows (tab h q)) = [].

Lemma nested_in_value v vs : nested_in [v :: vs] = nested_in [[v]] ++ nested_in [vs].
Proof. unfold nested_in. simpl. rewrite !app_nil_r. reflexivity. Qed.

Lemma cells_scan fuel kr row : 1 <= fuel -> nth_error (rows t) kr = Some row -> forall vs kc seen sf,
  vs = skipn kc row -> NoDup seen -> In p seen -> incl sf seen ->
  scans (nested_in [vs]) seen (wfor (map Z.of_nat (seq kc (List.length vs))) (cells fuel p (Z.of_nat kr)) (mkW h sf (seen, None))).
Proof.
  intros F Hr. assert (W : wf_table t) by apply (Forall_nth_error _ _ _ _ (wh_tables _ WH) Hp).
  pose proof (Forall_nth_error _ _ _ _ (wf_cells _ W) Hr) as FC.
  induction vs as [|v vs IH]; intros kc seen sf S N P I; [now apply scans_nil|].
  symmetry in S. apply skipn_cons in S as [Hv S].
  assert (LR : List.length row = List.length (ctypes t)) by (clear - FC; symmetry; induction FC; simpl; congruence).
  assert (LC : kc < List.length (ctypes t)) by (rewrite <- LR; eapply nth_error_some_lt; eauto).
  destruct (nth_error_lt (ctypes t) kc LC) as [ct Ht].
  destruct (nth_error_lt (cnames t) kc) as [n Hn]; [rewrite <- (wf_types_len _ W); exact LC|].
  cbn [List.length seq map]. rewrite wfor_cons, nested_in_value.
  assert (ONE : scans (nested_in [[v]]) seen (cells fuel p (Z.of_nat kr) (Z.of_nat kc) (mkW h sf (seen, None)))).
  { unfold cells.
    destruct (cellbody_eq h WH X nop nop (nve h p) vT vR vC S_HT S_HR (nve_eq h p) fuel p t kr kc row n ct v sf (seen, None) Hp Hr Hn Ht Hv)
      as [[NE E]|(q & -> & -> & L & E)]; refine (eq_ind_r (fun o => scans _ seen o) _ E).
    - unfold nve. cbn [ci_type]. destruct (String.eqb_spec ct "*Table"); [contradiction|]. cbn [fst snd].
      destruct (Forall2_nth _ _ _ _ _ FC Ht) as (w & Hw & CK). rewrite Hv in Hw. injection Hw as <-.
      replace (nested_in [[v]]) with (@nil ptr); [now apply scans_nil|]. destruct v as [| | | | | | |[q|]| |]; try reflexivity.
      exfalso. destruct CK as [CK _]. inversion CK; subst; congruence.
    - assert (Q : In q (nested_in (rows t))) by (apply In_nested_in; exists kr, row, kc; auto).
      unfold nve. cbn [ci_type ci_col ci_row]. rewrite (tab_nth _ _ _ Hp).
      rewrite (GetTableByColIndex_at t kc kr row q W Hr Ht Hv). cbn [String.eqb Ascii.eqb Bool.eqb fst snd].
      destruct (in_set q seen) eqn:B.
      + apply in_set_In in B. right. exists [], q, [], sf, seen. simpl. auto.
      + assert (NI : ~ In q seen) by (rewrite <- in_set_In, B; discriminate).
        assert (QP : q <> p) by (intros ->; contradiction).
        assert (B2 : in_set q sf = false) by (apply not_true_is_false; rewrite in_set_In; intros K; now apply NI, I).
        rewrite B2, !(leaf q fuel) by auto.
        left. destruct (nonnil h q); [exists (q :: sf)|exists sf]; (split; [reflexivity|]); simpl;
          (split; [now constructor|]); intros z K; [destruct K as [<-|K]; [now left|right; now apply I]|right; now apply I]. }
  eapply scans_seq; [exact ONE|]. intros sf' N' I'. apply IH; auto. apply in_app_iff. now right.
Qed.

Lemma rows_scan fuel : 1 <= fuel -> forall rs kr seen sf, rs = skipn kr (rows t) -> NoDup seen -> In p seen -> incl sf seen ->
  scans (nested_in rs) seen (wfor (map Z.of_nat (seq kr (List.length rs))) (rowsb fuel p) (mkW h sf (seen, None))).
Proof.
  intros F. assert (W : wf_table t) by apply (Forall_nth_error _ _ _ _ (wh_tables _ WH) Hp).
  induction rs as [|row rs IH]; intros kr seen sf S N P I; [now apply scans_nil|].
  symmetry in S. apply skipn_cons in S as [Hr S]. rewrite nested_in_cons. cbn [List.length seq map]. rewrite wfor_cons.
  eapply scans_seq; [|intros sf' N' I'; apply IH; auto; apply in_app_iff; now right].
  unfold rowsb. rewrite (rowbody_eq h X nop vT vR vC S_HR). cbn [nop]. rewrite (tab_nth _ _ _ Hp).
  pose proof (Forall_nth_error _ _ _ _ (wf_cells _ W) Hr) as FC.
  assert (LR : List.length row = List.length (cnames t)) by (rewrite <- (wf_types_len _ W); clear - FC; symmetry; induction FC; simpl; congruence).
  unfold zseq. rewrite <- LR. now apply (cells_scan fuel kr row F Hr row 0).
Qed.
End Shallow.

Lemma shallow_error h (p : ptr) : wf_heap h -> p < List.length h -> shallow h p ->
  flat_nesting h p \/ exists q, first_repeat p (nested_in (rows (tab h p))) q /\ IsValidTableNesting_err h p = Some (circ_error h p q).
Proof.
  intros WH L SH. destruct (nth_error_lt h p L) as [t Hp]. unfold shallow in SH. rewrite (tab_nth _ _ _ Hp) in SH.
  pose proof (rows_scan h WH p t Hp SH (S (List.length h)) ltac:(lia) (rows t) 0 [p] [] eq_refl (NoDup_cons _ (in_nil (a := p)) (NoDup_nil _)) (or_introl eq_refl) (incl_nil_l _)) as R.
  unfold IsValidTableNesting_err, walk_fuel.
  rewrite (Walk_S h _ nop _ _ _ (S_HT h)). cbn [nop]. rewrite (tab_nth _ _ _ Hp).
  destruct R as [(sf & E & N & I)|(b & q & a & sf & x & EL & E & N & I)].
  - left. split.
    + rewrite (tab_nth _ _ _ Hp). apply NoDup_rev in N. now rewrite rev_app_distr, rev_involutive in N.
    + intros q Q. rewrite (tab_nth _ _ _ Hp) in Q. apply SH; auto. intros ->. apply NoDup_remove_2 in N. apply N. rewrite app_nil_r. now apply in_rev in Q.
  - right. exists q. split.
    + exists b, a. split; auto. split.
      * apply NoDup_rev in N. now rewrite rev_app_distr, rev_involutive in N.
      * apply in_app_iff in I as [I|[->|[]]]; [right; now apply in_rev|now left].
    + unfold zseq. change (wfor (map Z.of_nat (seq 0 (List.length (rows t)))) (rowbody _ (fun _ : ptr => wret tt) (fun (_ : ptr) (_ : Z) => wret tt) (nesting_visit_err p) (S (List.length h)) p) (mkW h [] ([p], None)) = (mkW h sf (x, Some (circ_error h p q)), Err)) in E.
      rewrite E. reflexivity.
Qed.
