(** Proofs_Nesting.v -- tours of nested tables, and IsValidTableNesting. *)
From Coq Require Import ZArith NArith List String Ascii Bool Permutation Relations Lia.
From Verif Require Import Base Model_Names Model_Table Model_Sort Model_Copy Model_Merge Model_Ops Model_Heap.
From Verif Require Import Spec Spec_Sort Spec_Heap Spec_Walk.
From Verif Require Import Proofs_Lib Proofs_Table Proofs_Cells Proofs_Struct Proofs_Api Proofs_Pres Proofs_Heap Proofs_Walk.
Import ListNotations.
Local Open Scope string_scope.
Local Open Scope list_scope.

(** ---------- tours are unique ---------- *)
Lemma visits_unique h :
  (forall p evs, visits h p evs -> forall evs', visits h p evs' -> evs = evs')
  /\ (forall p t r rs evs, visits_rows h p t r rs evs -> forall evs', visits_rows h p t r rs evs' -> evs = evs')
  /\ (forall p t r c ns cts vs evs, visits_cells h p t r c ns cts vs evs ->
        forall evs', visits_cells h p t r c ns cts vs evs' -> evs = evs').
Proof.
  apply visits_all.
  - intros p t evs Hp V IH evs' V'. inversion V'; subst. f_equal. apply IH. congruence.
  - intros p t r evs' V. now inversion V.
  - intros p t r row rs ce re V1 I1 V2 I2 evs' V. inversion V; subst. f_equal. f_equal; auto.
  - intros p t r c evs' V. now inversion V.
  - intros p t r c n ns ct cts v vs evs NE V IH evs' V'. inversion V'; subst; [|contradiction]. f_equal; auto.
  - intros p t r c n ns cts q vs qe evs V1 I1 V2 I2 evs' V. inversion V; subst; [contradiction|]. f_equal. f_equal; auto.
Qed.
Lemma visits_det h p e1 e2 : visits h p e1 -> visits h p e2 -> e1 = e2.
Proof. intros A B. destruct (visits_unique h) as (U & _). eapply U; eauto. Qed.

(** ---------- sub-tours ---------- *)
Lemma visits_sub h :
  (forall p evs, visits h p evs -> forall q, In q (tables_of evs) -> exists qe, visits h q qe /\ incl qe evs)
  /\ (forall p t r rs evs, visits_rows h p t r rs evs -> forall q, In q (tables_of evs) -> exists qe, visits h q qe /\ incl qe evs)
  /\ (forall p t r c ns cts vs evs, visits_cells h p t r c ns cts vs evs ->
        forall q, In q (tables_of evs) -> exists qe, visits h q qe /\ incl qe evs).
Proof.
  apply visits_all.
  - intros p t evs Hp V IH q [<-|I].
    + exists (ETable p :: evs). split; [econstructor; eauto|apply incl_refl].
    + destruct (IH q I) as (qe & A & B). exists qe. split; auto. now apply incl_tl.
  - intros p t r q [].
  - intros p t r row rs ce re V1 I1 V2 I2 q I. simpl in I. rewrite tables_of_app, in_app_iff in I. destruct I as [I|I].
    + destruct (I1 q I) as (qe & A & B). exists qe. split; auto. apply incl_tl. now apply incl_appl.
    + destruct (I2 q I) as (qe & A & B). exists qe. split; auto. apply incl_tl. now apply incl_appr.
  - intros p t r c q [].
  - intros p t r c n ns ct cts v vs evs NE V IH q I. destruct (IH q I) as (qe & A & B). exists qe. split; auto. now apply incl_tl.
  - intros p t r c n ns cts q vs qe evs V1 I1 V2 I2 q' I. simpl in I. rewrite tables_of_app, in_app_iff in I. destruct I as [I|I].
    + destruct (I1 q' I) as (qe' & A & B). exists qe'. split; auto. apply incl_tl. now apply incl_appl.
    + destruct (I2 q' I) as (qe' & A & B). exists qe'. split; auto. apply incl_tl. now apply incl_appr.
Qed.

Lemma visits_rows_at h p t k row : forall rs r evs, visits_rows h p t r rs evs -> nth_error rs k = Some row ->
  In (ERow p (r + Z.of_nat k)) evs
  /\ exists ce, visits_cells h p t (r + Z.of_nat k) 0 (cnames t) (ctypes t) row ce /\ incl ce evs.
Proof.
  induction k as [|k IH]; intros rs r evs V H; inversion V; subst; try discriminate.
  - injection H as <-. replace (r + Z.of_nat 0)%Z with r by lia. split; [simpl; auto|]. exists ce. split; auto.
    apply incl_tl. apply incl_appl, incl_refl.
  - destruct (IH _ _ _ H1 H) as (A & ce' & B & C). replace (r + Z.of_nat (S k))%Z with (r + 1 + Z.of_nat k)%Z by lia.
    split; [right; rewrite in_app_iff; auto|]. exists ce'. split; auto. apply incl_tl. now apply incl_appr.
Qed.
Lemma visits_cells_at h p t r k n ct v : forall ns cts vs c evs, visits_cells h p t r c ns cts vs evs ->
  nth_error ns k = Some n -> nth_error cts k = Some ct -> nth_error vs k = Some v ->
  In (ECell p n ct (c + Z.of_nat k) r) evs
  /\ (ct = "*Table" -> exists q qe, v = VTable (Some q) /\ visits h q qe /\ incl qe evs).
Proof.
  induction k as [|k IH]; intros ns cts vs c evs V Hn Hc Hv; inversion V; subst; try discriminate; simpl in *.
  - injection Hn as <-. injection Hc as <-. injection Hv as <-. replace (c + 0)%Z with c by lia. split; auto. intros; contradiction.
  - injection Hn as <-. injection Hc as <-. injection Hv as <-. replace (c + 0)%Z with c by lia. split; auto. intros _.
    exists q, qe. split; auto. split; auto. apply incl_tl, incl_appl, incl_refl.
  - destruct (IH _ _ _ _ _ H0 Hn Hc Hv) as (A & B). replace (c + Z.of_nat (S k))%Z with (c + 1 + Z.of_nat k)%Z by lia.
    rewrite Zpos_P_of_succ_nat. replace (c + Z.succ (Z.of_nat k))%Z with (c + 1 + Z.of_nat k)%Z by lia.
    split; auto. intros E. destruct (B E) as (q & qe & ? & ? & ?). exists q, qe. repeat split; auto. now apply incl_tl.
  - destruct (IH _ _ _ _ _ H0 Hn Hc Hv) as (A & B).
    rewrite Zpos_P_of_succ_nat. replace (c + Z.succ (Z.of_nat k))%Z with (c + 1 + Z.of_nat k)%Z by lia.
    split; [right; apply in_app_iff; auto|]. intros E. destruct (B E) as (q' & qe' & ? & ? & ?). exists q', qe'. repeat split; auto.
    apply incl_tl. now apply incl_appr.
Qed.

(** Every row and every cell of every table of a tour is in the tour. *)
Lemma visits_complete h p evs : visits h p evs -> forall q t, In q (tables_of evs) -> nth_error h q = Some t ->
  forall kr row, nth_error (rows t) kr = Some row ->
  In (ERow q (Z.of_nat kr)) evs
  /\ forall kc n ct v, nth_error (cnames t) kc = Some n -> nth_error (ctypes t) kc = Some ct -> nth_error row kc = Some v ->
     In (ECell q n ct (Z.of_nat kc) (Z.of_nat kr)) evs
     /\ (ct = "*Table" -> exists q', v = VTable (Some q') /\ In q' (tables_of evs)).
Proof.
  intros V q t I Hq kr row Hr. destruct (visits_sub h) as (S & _). destruct (S _ _ V q I) as (qe & VQ & IN).
  inversion VQ; subst. assert (t0 = t) by congruence. subst t0.
  destruct (visits_rows_at _ _ _ _ _ _ _ _ H0 Hr) as (A & ce & VC & INC). rewrite Z.add_0_l in *.
  split; [apply IN; simpl; auto|]. intros kc n ct v Hn Hc Hv.
  destruct (visits_cells_at _ _ _ _ _ _ _ _ _ _ _ _ _ VC Hn Hc Hv) as (B & C). rewrite Z.add_0_l in B.
  split; [apply IN; right; apply INC; auto|]. intros E. destruct (C E) as (q' & qe' & -> & V' & I'). exists q'. split; auto.
  unfold tables_of. apply in_flat_map. exists (ETable q'). split; [|simpl; auto].
  apply IN. right. apply INC. apply I'. inversion V'; subst. simpl. auto.
Qed.

(** Every event of a tour is of a table of the tour, at a row and a column that exist. *)
Definition event_ok (h : heap) (e : event) : Prop :=
  match e with
  | ETable p => p < List.length h
  | ERow p r => (0 <= r < RowCount (tab h p))%Z
  | ECell p n ct c r => (0 <= r < RowCount (tab h p))%Z /\ col_at (tab h p) c n
                        /\ nth_error (ctypes (tab h p)) (Z.to_nat c) = Some ct
  end.
Definition owner (e : event) : ptr := match e with ETable p => p | ERow p _ => p | ECell p _ _ _ _ => p end.

Lemma visits_sound h :
  (forall p evs, visits h p evs -> Forall (event_ok h) evs /\ (forall e, In e evs -> In (owner e) (tables_of evs)))
  /\ (forall p t r rs evs, visits_rows h p t r rs evs -> forall k, nth_error h p = Some t -> r = Z.of_nat k -> rs = skipn k (rows t) ->
        Forall (event_ok h) evs /\ (forall e, In e evs -> owner e = p \/ In (owner e) (tables_of evs)))
  /\ (forall p t r c ns cts vs evs, visits_cells h p t r c ns cts vs evs ->
        forall k, nth_error h p = Some t -> (0 <= r < RowCount t)%Z -> c = Z.of_nat k -> ns = skipn k (cnames t) -> cts = skipn k (ctypes t) ->
        Forall (event_ok h) evs /\ (forall e, In e evs -> owner e = p \/ In (owner e) (tables_of evs))).
Proof.
  apply visits_all.
  - intros p t evs Hp V IH. destruct (IH 0 Hp eq_refl eq_refl) as (A & B). split.
    + constructor; auto. simpl. eapply nth_error_some_lt; eauto.
    + intros e [<-|I]; [simpl; auto|]. simpl. destruct (B e I) as [->|]; auto.
  - intros p t r k Hp Hr Hs. split; [constructor|]. intros e [].
  - intros p t r row rs ce re V1 I1 V2 I2 k Hp Hr Hs. symmetry in Hs. apply skipn_cons in Hs as [Hk Hs].
    assert (L : k < List.length (rows t)) by (eapply nth_error_some_lt; eauto).
    destruct (I1 0 Hp) as (A1 & B1); auto; [unfold RowCount; lia|].
    destruct (I2 (S k) Hp) as (A2 & B2); auto; [lia|]. split.
    + constructor; [simpl; rewrite (tab_nth _ _ _ Hp); unfold RowCount; lia|]. apply Forall_app; auto.
    + intros e [<-|I]; [simpl; auto|]. simpl. rewrite tables_of_app, in_app_iff. apply in_app_iff in I as [I|I].
      * destruct (B1 e I); auto.
      * destruct (B2 e I); auto.
  - intros p t r c k Hp Hr Hc Hs Ht. split; [constructor|]. intros e [].
  - intros p t r c n ns ct cts v vs evs NE V IH k Hp Hr Hc Hs Ht. symmetry in Hs, Ht.
    apply skipn_cons in Hs as [Hk Hs]. apply skipn_cons in Ht as [Hk' Ht].
    destruct (IH (S k) Hp) as (A & B); auto; [lia|]. split.
    + constructor; auto. simpl. rewrite (tab_nth _ _ _ Hp). unfold col_at. subst c. rewrite Nat2Z.id. repeat split; auto; lia.
    + intros e [<-|I]; [simpl; auto|]. auto.
  - intros p t r c n ns cts q vs qe evs V1 I1 V2 I2 k Hp Hr Hc Hs Ht. symmetry in Hs, Ht.
    apply skipn_cons in Hs as [Hk Hs]. apply skipn_cons in Ht as [Hk' Ht].
    destruct I1 as (A1 & B1). destruct (I2 (S k) Hp) as (A2 & B2); auto; [lia|]. split.
    + constructor; [|apply Forall_app; auto]. simpl. rewrite (tab_nth _ _ _ Hp). unfold col_at. subst c. rewrite Nat2Z.id. repeat split; auto; lia.
    + intros e [<-|I]; [simpl; auto|]. simpl. rewrite tables_of_app, in_app_iff. apply in_app_iff in I as [I|I]; [auto|].
      destruct (B2 e I); auto.
Qed.

(** No event occurs twice in a tour that enters no table twice. *)
Definition after_row (p : ptr) (r : Z) (e : event) : Prop :=
  match e with ETable _ => False | ERow q r' => q = p /\ (r <= r')%Z | ECell q _ _ _ r' => q = p /\ (r <= r')%Z end.
Definition after_col (p : ptr) (r c : Z) (e : event) : Prop :=
  match e with ECell q _ _ c' r' => q = p /\ r' = r /\ (c <= c')%Z | _ => False end.

Lemma visits_once h :
  (forall p evs, visits h p evs -> NoDup (tables_of evs) -> NoDup evs /\ (forall e, In e evs -> In (owner e) (tables_of evs)))
  /\ (forall p t r rs evs, visits_rows h p t r rs evs -> NoDup (p :: tables_of evs) ->
        NoDup evs /\ (forall e, In e evs -> In (owner e) (tables_of evs) \/ after_row p r e))
  /\ (forall p t r c ns cts vs evs, visits_cells h p t r c ns cts vs evs -> NoDup (p :: tables_of evs) ->
        NoDup evs /\ (forall e, In e evs -> In (owner e) (tables_of evs) \/ after_col p r c e)).
Proof.
  apply visits_all.
  - intros p t evs Hp V IH N. destruct (IH N) as (A & B). simpl in N. split.
    + constructor; auto. intros I. destruct (B _ I) as [J|[]]. simpl in J. inversion N; auto.
    + intros e [<-|I]; simpl; auto. destruct (B e I) as [|J]; auto. destruct e; simpl in *; destruct J; subst; auto.
  - intros p t r N. split; [constructor|]. intros e [].
  - intros p t r row rs ce re V1 I1 V2 I2 N. simpl in N. rewrite tables_of_app in N.
    assert (N' := N). inversion N' as [|? ? NI ND]; subst. apply NoDup_app_inv in ND as (D1 & D2 & D3).
    rewrite in_app_iff in NI.
    destruct I1 as (A1 & B1); [constructor; auto; tauto|]. destruct I2 as (A2 & B2); [constructor; auto; tauto|]. split.
    + constructor.
      * rewrite in_app_iff. intros [I|I].
        -- destruct (B1 _ I) as [J|[]]. simpl in J. tauto.
        -- destruct (B2 _ I) as [J|J]; simpl in J; [tauto|lia].
      * apply NoDup_app_inv_intro; auto. intros e I J.
        destruct (B1 e I) as [K|K]; destruct (B2 e J) as [L|L]; [eapply D3; eauto|..].
        -- destruct e; simpl in *; try contradiction; destruct L as [-> _]; tauto.
        -- destruct e; simpl in *; try contradiction; destruct K as [-> _]; tauto.
        -- destruct e; simpl in *; try contradiction. lia.
    + intros e [<-|I]; [right; simpl; split; auto; lia|]. simpl. rewrite tables_of_app, in_app_iff. apply in_app_iff in I as [I|I].
      * destruct (B1 e I) as [|K]; auto. right. destruct e; simpl in *; try contradiction. split; [tauto|lia].
      * destruct (B2 e I) as [|K]; auto. right. destruct e; simpl in *; try contradiction; split; try tauto; lia.
  - intros p t r c N. split; [constructor|]. intros e [].
  - intros p t r c n ns ct cts v vs evs NE V IH N. destruct (IH N) as (A & B). split.
    + constructor; auto. intros I. destruct (B _ I) as [J|J]; simpl in J; [|lia]. inversion N; auto.
    + intros e [<-|I]; [right; simpl; repeat split; lia|]. destruct (B e I) as [|K]; auto. right.
      destruct e; simpl in *; try contradiction. repeat split; try tauto; lia.
  - intros p t r c n ns cts q vs qe evs V1 I1 V2 I2 N. simpl in N. rewrite tables_of_app in N.
    inversion N as [|? ? NI ND]; subst. apply NoDup_app_inv in ND as (D1 & D2 & D3). rewrite in_app_iff in NI.
    destruct I1 as (A1 & B1); auto. destruct I2 as (A2 & B2); [constructor; auto; tauto|]. split.
    + constructor.
      * rewrite in_app_iff. intros [I|I].
        -- apply B1 in I. simpl in I. tauto.
        -- destruct (B2 _ I) as [J|J]; simpl in J; [tauto|lia].
      * apply NoDup_app_inv_intro; auto. intros e I J.
        destruct (B2 e J) as [L|L]; [eapply D3; eauto|]. apply B1 in I. destruct e; simpl in *; try contradiction. destruct L as [-> _]. tauto.
    + intros e [<-|I]; [right; simpl; repeat split; lia|]. simpl. rewrite tables_of_app, in_app_iff. apply in_app_iff in I as [I|I]; auto.
      destruct (B2 e I) as [|K]; auto. right. destruct e; simpl in *; try contradiction. repeat split; try tauto; lia.
Qed.

(** ---------- Walk ---------- *)

Lemma NoDup_bounded (l : list ptr) n : NoDup l -> (forall q, In q l -> q < n) -> List.length l <= n.
Proof.
  intros N B. rewrite <- (seq_length n 0). apply NoDup_incl_length; auto. intros q Q. apply in_seq. specialize (B q Q). lia.
Qed.
Lemma visits_lt h p evs q : visits h p evs -> In q (tables_of evs) -> q < List.length h.
Proof.
  intros V I. destruct (visits_sub h) as (S & _). destruct (S _ _ V q I) as (qe & VQ & _). inversion VQ; subst.
  eapply nth_error_some_lt; eauto.
Qed.
Lemma visits_head h p evs : visits h p evs -> evs = ETable p :: tl evs.
Proof. intros V. inversion V; subst. reflexivity. Qed.
Lemma nn_In h evs q : In q (nn h evs) -> In q (tables_of evs).
Proof. unfold nn. intros I. apply filter_In in I. tauto. Qed.
Lemma nn_NoDup h evs : NoDup (tables_of evs) -> NoDup (nn h evs).
Proof. apply NoDup_filter. Qed.

Section Steps.
Context {X : Type} (h : heap) (WH : wf_heap h).
Variables (vT : visitor X ptr) (vR : visitor X (ptr * Z)) (vC : visitor X cell_info).
Variables (sT : ptr -> W X unit) (sR : ptr -> Z -> W X unit) (sC : cell_info -> W X unit).
Variable HT : forall p sf x, sT p (mkW h sf x) = (mkW h sf (fst (vT p x)), snd (vT p x)).
Variable HR : forall p r sf x, sR p r (mkW h sf x) = (mkW h sf (fst (vR (p, r) x)), snd (vR (p, r) x)).
Variable HC : forall i sf x, sC i (mkW h sf x) = (mkW h sf (fst (vC i x)), snd (vC i x)).

Lemma Walk_feed fuel p evs x : visits h p evs -> NoDup (nn h (tl evs)) -> walk_fuel h <= fuel ->
  exists sf, Walk fuel true sT sR sC p (mkW h [] x)
    = (mkW h sf (fst (feed vT vR vC evs x)), snd (feed vT vR vC evs x)).
Proof.
  intros V N L. destruct (Walk_follows h WH X vT vR vC sT sR sC HT HR HC) as (F & _).
  destruct (F p evs V fuel [] x) as (sf & E & _); auto.
  - unfold fuel_ok, walk_fuel in *. destruct (is_nil (tab h p)); [lia|].
    assert (B : List.length (nn h (tl evs)) <= List.length h); [|lia].
    apply NoDup_bounded; auto. intros q Q. apply nn_In in Q. apply (visits_lt h p evs q V).
    rewrite (visits_head _ _ _ V). simpl. auto.
  - exists sf. exact E.
Qed.
Lemma Walk_Ok_tour fuel p x s : p < List.length h -> Walk fuel true sT sR sC p (mkW h [] x) = (s, Ok tt) ->
  exists evs, visits h p evs /\ feed vT vR vC evs x = (w_x s, Ok tt) /\ NoDup (nn h (tl evs)).
Proof.
  intros Lp E. destruct (Walk_ok h WH X vT vR vC sT sR sC HT HR HC fuel p [] x s Lp E) as (evs & V & F & _ & N & _).
  exists (ETable p :: evs). auto.
Qed.
Lemma Walk_terminates fuel p x : (forall a x, snd (vT a x) <> Panic) -> (forall a x, snd (vR a x) <> Panic) -> (forall a x, snd (vC a x) <> Panic) ->
  p < List.length h -> walk_fuel h <= fuel ->
  snd (Walk fuel true sT sR sC p (mkW h [] x)) <> Panic /\ w_heap (fst (Walk fuel true sT sR sC p (mkW h [] x))) = h.
Proof.
  intros A B C Lp L. destruct (Walk_fine h WH X vT vR vC sT sR sC HT HR HC A B C fuel p [] x Lp) as [N (sf & x' & E & _)].
  - split; [constructor|intros q []].
  - unfold walk_fuel in L. destruct (is_nil (tab h p)); simpl; lia.
  - split; auto. now rewrite E.
Qed.
End Steps.

Lemma pure_step_eq {X A} (v : visitor X A) (h : heap) a sf x : pure_step v a (mkW h sf x) = (mkW h sf (fst (v a x)), snd (v a x)).
Proof. unfold pure_step. simpl. now destruct (v a x). Qed.

(** ---------- IsValidTableNesting ---------- *)

Lemma table_value v : has_type "*Table" v -> exists q, v = VTable (Some q).
Proof.
  intros H. destruct v as [| | |k z| | | |[q|]| |]; simpl in H; try contradiction; try discriminate H; eauto;
    try (destruct k; try discriminate H); destruct H as [H|H]; discriminate H.
Qed.

Lemma GetTableByColIndex_eq t c r : wf_table t ->
  (exists kc kr row q, c = Z.of_nat kc /\ r = Z.of_nat kr /\ nth_error (rows t) kr = Some row
     /\ nth_error (ctypes t) kc = Some "*Table" /\ nth_error row kc = Some (VTable (Some q))
     /\ GetTableByColIndex t c r = Ok (Some q))
  \/ GetTableByColIndex t c r = Err.
Proof.
  intros W. unfold GetTableByColIndex.
  destruct (GetTByColIndex_eq "*Table" t c r W) as [(ct & Hc & Ht & ST & Hr & E & v & G & HT)|[_ E]]; [now apply str_in_In| |].
  - left. rewrite E, G. rewrite GetValByColIndex_eq in G by auto. destruct (is_nil t); [discriminate|].
    destruct (HasRow t r && HasColByColIndex t c); [|discriminate].
    unfold at_cell in G. destruct (nth_error (rows t) (Z.to_nat r)) as [row|] eqn:ER; [|discriminate]. simpl in G.
    destruct (nth_error row (Z.to_nat c)) as [w|] eqn:EC; [|discriminate]. injection G as ->.
    assert (ct = "*Table") by (unfold same_go_type in ST; intuition congruence). subst ct.
    destruct (table_value v HT) as [q ->].
    exists (Z.to_nat c), (Z.to_nat r), row, q. rewrite !Z2Nat.id by lia. repeat split; auto.
  - right. now rewrite E.
Qed.
Lemma GetTableByColIndex_at t kc kr row q : wf_table t -> nth_error (rows t) kr = Some row ->
  nth_error (ctypes t) kc = Some "*Table" -> nth_error row kc = Some (VTable (Some q)) ->
  GetTableByColIndex t (Z.of_nat kc) (Z.of_nat kr) = Ok (Some q).
Proof.
  intros W Hr Ht Hq. unfold GetTableByColIndex.
  destruct (GetTByColIndex_eq "*Table" t (Z.of_nat kc) (Z.of_nat kr) W) as [(ct & Hc & _ & _ & Hr' & E & v & G & _)|[N _]].
  - now apply str_in_In.
  - rewrite E, G. rewrite GetValByColIndex_eq in G by auto. destruct (is_nil t); [discriminate|].
    destruct (HasRow t _ && HasColByColIndex t _); [|discriminate].
    unfold at_cell in G. rewrite !Nat2Z.id, Hr, Hq in G. injection G as <-. reflexivity.
  - exfalso. apply N. exists "*Table". rewrite Nat2Z.id. unfold ColCount, RowCount.
    assert (kr < List.length (rows t)) by (eapply nth_error_some_lt; eauto).
    assert (kc < List.length (ctypes t)) by (eapply nth_error_some_lt; eauto).
    rewrite (wf_types_len _ W) in *. repeat split; auto; try lia. now left.
Qed.

Lemma In_nested_in (q : ptr) rs : In q (nested_in rs) <->
  exists kr row kc, nth_error rs kr = Some row /\ nth_error row kc = Some (VTable (Some q)).
Proof.
  unfold nested_in. rewrite in_flat_map. split.
  - intros (row & I & J). apply in_flat_map in J as (v & J & K). destruct v as [| | | | | | |[z|]| |]; simpl in K; try contradiction.
    destruct K as [->|[]]. apply In_nth_error in I as [kr I]. apply In_nth_error in J as [kc J]. eauto 6.
  - intros (kr & row & kc & A & B). exists row. split; [eapply nth_error_In; eauto|]. apply in_flat_map.
    exists (VTable (Some q)). split; [eapply nth_error_In; eauto|simpl; auto].
Qed.

(** the test of IsValidTableNesting as a visitor *)
Definition nv (h : heap) (root : ptr) : visitor (list ptr) cell_info := fun i x =>
  if ci_type i =? "*Table" then
    match GetTableByColIndex (tab h root) (ci_col i) (ci_row i) with
    | Ok (Some q) => if in_set q x then (x, Err) else (q :: x, Ok tt)
    | Ok None => (x, Panic) | Err => (x, Err) | Panic => (x, Panic)
    end
  else (x, Ok tt).
Definition nop {X A} : visitor X A := fun _ x => (x, Ok tt).
Lemma nesting_visit_eq h root i sf x :
  nesting_visit root i (mkW h sf x) = (mkW h sf (fst (nv h root i x)), snd (nv h root i x)).
Proof.
  unfold nesting_visit, nv. destruct (ci_type i =? "*Table"); [|reflexivity].
  rewrite wbind_wtab. cbn [w_heap]. rewrite wbind_wlift. destruct (GetTableByColIndex (tab h root) (ci_col i) (ci_row i)) as [[q|]| |]; try reflexivity.
  cbn [w_x w_heap w_safe]. now destruct (in_set q x).
Qed.
Lemma nv_no_panic h root i x : wf_heap h -> snd (nv h root i x) <> Panic.
Proof.
  intros WH. destruct (tab_wf h root WH) as [W _]. unfold nv. destruct (ci_type i =? "*Table"); [|discriminate].
  destruct (GetTableByColIndex_eq (tab h root) (ci_col i) (ci_row i) W) as [(kc & kr & row & q & _ & _ & _ & _ & _ & E)|E]; rewrite E; [|discriminate].
  destruct (in_set q x); discriminate.
Qed.

Definition is_tcell (e : event) : bool := match e with ECell _ _ ct _ _ => ct =? "*Table" | _ => false end.
Definition tcells (evs : list event) : list event := filter is_tcell evs.
Definition look (t : table) (e : event) : res ref :=
  match e with ECell _ _ _ c r => GetTableByColIndex t c r | _ => Err end.
Lemma tcells_app a b : tcells (a ++ b) = tcells a ++ tcells b.
Proof. apply filter_app. Qed.

Lemma feed_nv h root : forall evs x x' u, feed nop nop (nv h root) evs x = (x', Ok u) <->
  u = tt /\ exists qs, map (look (tab h root)) (tcells evs) = map (fun q => Ok (Some q)) qs
    /\ NoDup qs /\ (forall q, In q qs -> ~ In q x) /\ x' = rev qs ++ x.
Proof.
  induction evs as [|e evs IH]; intros x x' u.
  - simpl. split.
    + intros H. injection H as -> ->. split; auto. exists []. repeat split; auto. constructor.
    + intros (-> & qs & E & _ & _ & ->). destruct qs; [reflexivity|discriminate].
  - destruct e as [p|p r|p n ct c r]; [apply IH..|]. cbn [feed]. unfold nv at 1. cbn [ci_type ci_col ci_row].
    simpl tcells. destruct (ct =? "*Table"); [|apply IH]. simpl map.
    destruct (GetTableByColIndex (tab h root) c r) as [[q|]| |] eqn:EG.
    + destruct (in_set q x) eqn:IS.
      * split; [discriminate|]. intros (_ & qs & E & N & D & _). destruct qs as [|q' qs]; [discriminate|].
        injection E as <- _. exfalso. apply (D q); simpl; auto. now apply in_set_In.
      * rewrite IH. split.
        -- intros (-> & qs & E & N & D & ->). split; auto. exists (q :: qs). repeat split.
           ++ simpl. now rewrite E.
           ++ constructor; auto. intros I. apply (D q I). simpl. auto.
           ++ intros z [<-|I] J; [apply in_set_In in J; congruence|]. apply (D z I). simpl; auto.
           ++ simpl. now rewrite <- app_assoc.
        -- intros (-> & qs & E & N & D & ->). split; auto. destruct qs as [|q' qs]; [discriminate|].
           injection E as <- E. exists qs. inversion N; subst. repeat split; auto.
           ++ intros z I [<-|J]; [contradiction|]. apply (D z); simpl; auto.
           ++ simpl. now rewrite <- app_assoc.
    + split; [discriminate|]. intros (_ & qs & E & _). destruct qs; discriminate.
    + split; [discriminate|]. intros (_ & qs & E & _). destruct qs; discriminate.
    + split; [discriminate|]. intros (_ & qs & E & _). destruct qs; discriminate.
Qed.

(** the table cells of the tour of p include those of p itself *)
Lemma look_own_cells h p t kr row : wf_table t -> nth_error (rows t) kr = Some row -> 
  forall ns cts vs kc evs, visits_cells h p t (Z.of_nat kr) (Z.of_nat kc) ns cts vs evs ->
  cts = skipn kc (ctypes t) -> vs = skipn kc row ->
  exists extra, Permutation (map (look t) (tcells evs)) (map (fun q => Ok (Some q)) (nested_in [vs]) ++ map (look t) extra)
    /\ ((forall q qe, In q (nested_in [vs]) -> visits h q qe -> tcells qe = []) ->
        map (look t) (tcells evs) = map (fun q => Ok (Some q)) (nested_in [vs])).
Proof.
  intros W Hr. induction ns as [|n ns IH]; intros cts vs kc evs V.
  - inversion V; subst. intros _ _. exists []. simpl. split; auto.
  - inversion V as [ | ? ? ? ? ? ? ? ? v ? ? NE V1 | ? ? ? ? ? ? ? q ? ? ? V0 V1]; subst.
    + intros E1 E2. symmetry in E1, E2. apply skipn_cons in E1 as [A A']. apply skipn_cons in E2 as [B B']. subst.
      replace (Z.of_nat kc + 1)%Z with (Z.of_nat (S kc)) in V1 by lia. destruct (IH _ _ _ _ V1 eq_refl eq_refl) as (ex & P & Q).
      assert (EN : nested_in [v :: skipn (S kc) row] = nested_in [skipn (S kc) row]).
      { destruct (Forall2_nth _ _ _ _ _ (Forall_nth_error _ _ _ _ (wf_cells _ W) Hr) A) as (v' & Hv & CK).
        assert (v' = v) by congruence. subst. destruct CK as [HT _]. destruct v as [| | | | | | |[z|]| |]; auto.
        simpl in HT. congruence. }
      rewrite EN. exists ex. simpl tcells. apply String.eqb_neq in NE. rewrite NE. auto.
    + intros E1 E2. symmetry in E1, E2. apply skipn_cons in E1 as [A A']. apply skipn_cons in E2 as [B B']. subst.
      replace (Z.of_nat kc + 1)%Z with (Z.of_nat (S kc)) in V1 by lia. destruct (IH _ _ _ _ V1 eq_refl eq_refl) as (ex & P & Q).
      assert (EN : nested_in [VTable (Some q) :: skipn (S kc) row] = q :: nested_in [skipn (S kc) row]) by reflexivity.
      rewrite EN. simpl tcells. rewrite tcells_app, map_cons, map_app.
      assert (LK : look t (ECell p n "*Table" (Z.of_nat kc) (Z.of_nat kr)) = Ok (Some q)) by (simpl; eapply GetTableByColIndex_at; eauto).
      rewrite LK. exists (tcells qe ++ ex). split.
      * rewrite (map_app (look t)), map_cons. cbn [app]. constructor. rewrite P. rewrite !app_assoc. apply Permutation_app_tail. apply Permutation_app_comm.
      * intros K. rewrite (K q qe); simpl; auto. f_equal. apply Q. intros q' qe' I V'. eapply K; eauto. simpl; auto.
Qed.
Lemma nested_in_cons row rs : nested_in (row :: rs) = nested_in [row] ++ nested_in rs.
Proof. unfold nested_in. simpl. now rewrite app_nil_r. Qed.
Lemma look_own_rows h p t : wf_table t ->
  forall rs k evs, rs = skipn k (rows t) -> visits_rows h p t (Z.of_nat k) rs evs ->
  exists extra, Permutation (map (look t) (tcells evs)) (map (fun q => Ok (Some q)) (nested_in rs) ++ map (look t) extra)
    /\ ((forall q qe, In q (nested_in rs) -> visits h q qe -> tcells qe = []) ->
        map (look t) (tcells evs) = map (fun q => Ok (Some q)) (nested_in rs)).
Proof.
  intros W. induction rs as [|row rs IH]; intros k evs E V.
  - inversion V; subst. exists []. simpl. auto.
  - inversion V as [|? ? ? ? ? ? ? V1 V2]; subst. symmetry in E. apply skipn_cons in E as [A A'].
    replace (Z.of_nat k + 1)%Z with (Z.of_nat (S k)) in V2 by lia. destruct (IH (S k) re (eq_sym A') V2) as (ex & P & Q).
    destruct (look_own_cells h p t k row W A (cnames t) _ _ 0 ce V1 eq_refl eq_refl) as (ex' & P' & Q').
    rewrite nested_in_cons. simpl tcells. rewrite tcells_app, !(map_app (look t)), !(map_app (fun q => Ok (Some q))). exists (ex' ++ ex). split.
    + rewrite P, P', (map_app (look t)). rewrite <- !app_assoc. apply Permutation_app_head. rewrite !app_assoc. apply Permutation_app_tail. apply Permutation_app_comm.
    + intros K. rewrite Q, Q'; auto; intros q qe I V'; eapply K; eauto; apply in_app_iff; auto.
Qed.

Lemma no_tcells h q qe : wf_heap h -> visits h q qe -> nested_in (rows (tab h q)) = [] -> tcells qe = [].
Proof.
  intros WH V E. inversion V; subst. rewrite (tab_nth _ _ _ H) in E.
  assert (W : wf_table t) by apply (Forall_nth_error _ _ _ _ (wh_tables _ WH) H).
  destruct (look_own_rows h q t W (rows t) 0 evs eq_refl H0) as (_ & _ & Q). rewrite E in Q.
  specialize (Q (fun _ _ I => match I with end)). simpl in Q. simpl tcells. now destruct (tcells evs).
Qed.

(** a tour exists when the nested tables have one *)
Lemma tour_cells h p t r (T : ptr -> list event) : (0 <= r < RowCount t)%Z ->
  forall ns cts vs c, Forall2 cell_ok cts vs -> List.length ns = List.length cts ->
  (forall q, In q (nested_in [vs]) -> visits h q (T q)) ->
  exists evs, visits_cells h p t r c ns cts vs evs /\ tables_of evs = flat_map (fun q => tables_of (T q)) (nested_in [vs]).
Proof.
  intros Hr. induction ns as [|n ns IH]; intros cts vs c F L HT; destruct cts as [|ct cts]; try discriminate; inversion F; subst.
  - exists []. split; [constructor|reflexivity].
  - injection L as L. destruct (String.eqb_spec ct "*Table").
    + subst. destruct (table_value y (proj1 H1)) as [q ->].
      destruct (IH cts l' (c + 1)%Z H3 L) as (evs & V & TO).
      { intros q' I. apply HT. simpl. auto. }
      exists (ECell p n "*Table" c r :: T q ++ evs). split.
      * apply vis_nested; auto. apply HT. simpl; auto.
      * change (nested_in [VTable (Some q) :: l']) with (q :: nested_in [l']). simpl. now rewrite tables_of_app, TO.
    + destruct (IH cts l' (c + 1)%Z H3 L) as (evs & V & TO).
      { intros q I. apply HT. unfold nested_in in *. simpl in *. rewrite app_nil_r in *. apply in_app_iff. auto. }
      exists (ECell p n ct c r :: evs). split; [now apply vis_cell|].
      replace (nested_in [y :: l']) with (nested_in [l']); auto.
      destruct H1 as [HT' _]. destruct y as [| | |k z| | | |[q|]| |]; auto. simpl in HT'. contradiction.
Qed.
Lemma tour_rows h p t (T : ptr -> list event) : wf_table t ->
  forall rs k, rs = skipn k (rows t) -> (forall q, In q (nested_in rs) -> visits h q (T q)) ->
  exists evs, visits_rows h p t (Z.of_nat k) rs evs /\ tables_of evs = flat_map (fun q => tables_of (T q)) (nested_in rs).
Proof.
  intros W. induction rs as [|row rs IH]; intros k E HT.
  - exists []. split; [constructor|reflexivity].
  - symmetry in E. apply skipn_cons in E as [A A']. rewrite nested_in_cons in HT.
    destruct (IH (S k) (eq_sym A')) as (re & V & TO); [intros q I; apply HT, in_app_iff; auto|].
    assert (k < List.length (rows t)) by (eapply nth_error_some_lt; eauto).
    destruct (tour_cells h p t (Z.of_nat k) T) with (ns := cnames t) (cts := ctypes t) (vs := row) (c := 0%Z) as (ce & VC & TC).
    + unfold RowCount. lia.
    + apply (Forall_nth_error _ _ _ _ (wf_cells _ W) A).
    + symmetry. apply (wf_types_len _ W).
    + intros q I; apply HT, in_app_iff; auto.
    + exists (ERow p (Z.of_nat k) :: ce ++ re). split.
      * constructor; auto. replace (Z.of_nat k + 1)%Z with (Z.of_nat (S k)) by lia. exact V.
      * rewrite nested_in_cons, flat_map_app. simpl. now rewrite tables_of_app, TO, TC.
Qed.

Lemma visits_flat0 h q : wf_heap h -> q < List.length h -> nested_in (rows (tab h q)) = [] ->
  exists evs, visits h q (ETable q :: evs) /\ tables_of evs = [].
Proof.
  intros WH L E. destruct (nth_error_lt h q L) as [t Hq]. rewrite (tab_nth _ _ _ Hq) in E.
  assert (W : wf_table t) by apply (Forall_nth_error _ _ _ _ (wh_tables _ WH) Hq).
  destruct (tour_rows h q t (fun _ => []) W (rows t) 0 eq_refl) as (evs & V & T); [rewrite E; intros ? []|].
  exists evs. rewrite E in T. split; auto. econstructor; eauto.
Qed.
Lemma nested_lt h p q : wf_heap h -> In q (nested_in (rows (tab h p))) -> q < List.length h.
Proof.
  intros WH I. apply In_nested_in in I as (kr & row & kc & A & B). destruct (tab_wf h p WH) as [W P].
  assert (exists ct, nth_error (ctypes (tab h p)) kc = Some ct /\ ct = "*Table") as (ct & C & ->).
  { pose proof (Forall_nth_error _ _ _ _ (wf_cells _ W) A) as F. pose proof (Forall2_len _ _ _ F) as L.
    assert (kc < List.length row) by (eapply nth_error_some_lt; eauto).
    destruct (nth_error_lt (ctypes (tab h p)) kc) as [ct C]; [lia|]. exists ct. split; auto.
    destruct (Forall2_nth _ _ _ _ _ F C) as (v & V & CK). assert (v = VTable (Some q)) by congruence. subst. now destruct CK. }
  pose proof (GetTableByColIndex_at _ _ _ _ _ W A C B) as G. eapply GetTableByColIndex_lt; eauto.
Qed.

Lemma flat_tour h p : wf_heap h -> p < List.length h -> flat_nesting h p ->
  exists evs, visits h p (ETable p :: evs) /\ tables_of evs = nested_in (rows (tab h p))
    /\ map (look (tab h p)) (tcells evs) = map (fun q => Ok (Some q)) (nested_in (rows (tab h p))).
Proof.
  intros WH L [N F]. destruct (nth_error_lt h p L) as [t Hp]. rewrite (tab_nth _ _ _ Hp) in *.
  assert (W : wf_table t) by apply (Forall_nth_error _ _ _ _ (wh_tables _ WH) Hp).
  assert (LT : forall q, In q (nested_in (rows t)) -> q < List.length h).
  { intros q I. apply (nested_lt h p); auto. now rewrite (tab_nth _ _ _ Hp). }
  assert (T : exists T, forall q, In q (nested_in (rows t)) -> visits h q (T q) /\ tables_of (T q) = [q]).
  { generalize (nested_in (rows t)) LT F. clear -WH. induction l as [|q l IH]; intros LT F.
    - exists (fun _ => []). intros q [].
    - destruct IH as [T HT]; [intros; apply LT; simpl; auto|intros; apply F; simpl; auto|].
      destruct (visits_flat0 h q WH) as (qe & V & TO); [apply LT; simpl; auto|apply F; simpl; auto|].
      exists (fun z => if Nat.eqb z q then ETable q :: qe else T z). intros z I. destruct (Nat.eqb_spec z q).
      + subst. split; auto. simpl. now rewrite TO.
      + apply HT. destruct I; congruence. }
  destruct T as [T HT].
  destruct (tour_rows h p t T W (rows t) 0 eq_refl) as (evs & V & TO); [apply HT|].
  exists evs. split; [econstructor; eauto|]. split.
  - rewrite TO. clear -HT. induction (nested_in (rows t)) as [|q l IH]; simpl; auto.
    rewrite (proj2 (HT q (or_introl eq_refl))), IH; [reflexivity|]. intros; apply HT; simpl; auto.
  - destruct (look_own_rows h p t W (rows t) 0 evs eq_refl V) as (_ & _ & Q). apply Q.
    intros q qe I VQ. eapply no_tcells; eauto.
Qed.

Lemma NoDup_map_eq {A B} (f : A -> B) l a b : NoDup (map f l) -> In a l -> In b l -> f a = f b -> a = b.
Proof.
  induction l as [|y l IH]; simpl; intros N I J E; [contradiction|]. inversion N; subst.
  destruct I as [->|I], J as [->|J]; auto.
  - exfalso. apply H1. rewrite E. now apply in_map.
  - exfalso. apply H1. rewrite <- E. now apply in_map.
Qed.
Lemma NoDup_okmap (qs : list ptr) : NoDup qs -> NoDup (map (fun q => @Ok ref (Some q)) qs).
Proof. intros N. apply FinFun.Injective_map_NoDup; auto. intros a b E. congruence. Qed.

Lemma IsValidTableNesting_iff h (p : ptr) : wf_heap h -> p < List.length h ->
  IsValidTableNesting h p = Ok tt <-> flat_nesting h p.
Proof.
  intros WH L. unfold IsValidTableNesting. destruct (tab_wf h p WH) as [W _]. split.
  - match goal with |- snd ?w = _ -> _ => destruct w as [s o] eqn:E end.
    cbn [snd]. intros ->.
    destruct (Walk_Ok_tour h WH nop nop (nv h p) _ _ _ (fun _ _ _ => eq_refl) (fun _ _ _ _ => eq_refl) (nesting_visit_eq h p) _ _ _ _ L E)
      as (evs & V & F & _).
    apply feed_nv in F as (_ & qs & LK & N & D & _).
    assert (ND : NoDup (map (look (tab h p)) (tcells evs))) by (rewrite LK; exact (NoDup_okmap qs N)).
    assert (OWN : forall q, In q (nested_in (rows (tab h p))) -> exists n c r, In (ECell p n "*Table" c r) evs
      /\ GetTableByColIndex (tab h p) c r = Ok (Some q) /\ In q (tables_of evs) /\ In q qs).
    { intros q I. apply In_nested_in in I as (kr & row & kc & A & B). inversion V; subst. rewrite (tab_nth _ _ _ H) in *.
      pose proof (Forall_nth_error _ _ _ _ (wf_cells _ W) A) as F2. pose proof (Forall2_len _ _ _ F2) as L2.
      assert (kc < List.length row) by (eapply nth_error_some_lt; eauto).
      destruct (nth_error_lt (ctypes t) kc) as [ct C]; [lia|].
      destruct (nth_error_lt (cnames t) kc) as [n C']; [rewrite <- (wf_types_len _ W); lia|].
      assert (ct = "*Table"). { destruct (Forall2_nth _ _ _ _ _ F2 C) as (v & Hv & CK). assert (v = VTable (Some q)) by congruence. subst. now destruct CK. }
      subst ct. destruct (visits_complete h p _ V p t) with (kr := kr) (row := row) as (_ & K); auto; [simpl; auto|].
      destruct (K kc n _ _ C' C B) as (K1 & K2). destruct (K2 eq_refl) as (q' & Eq & IQ). injection Eq as <-.
      exists n, (Z.of_nat kc), (Z.of_nat kr). pose proof (GetTableByColIndex_at _ _ _ _ _ W A C B) as G. repeat split; auto.
      assert (I : In (look t (ECell p n "*Table" (Z.of_nat kc) (Z.of_nat kr))) (map (look t) (tcells (ETable p :: evs0)))).
      { apply in_map. apply filter_In. split; auto. }
      rewrite LK in I. simpl in I. rewrite G in I. apply in_map_iff in I as (z & Ez & Iz). congruence. }
    assert (SUB : forall q, In q (nested_in (rows (tab h p))) -> nested_in (rows (tab h q)) = []).
    { intros q I. destruct (OWN q I) as (n & c & r & _ & _ & TQ & QQ).
      assert (NP : q <> p). { intros ->. apply (D p QQ). simpl; auto. }
      destruct (nested_in (rows (tab h q))) as [|z l] eqn:EN; auto. exfalso.
      assert (Iz : In z (nested_in (rows (tab h q)))) by (rewrite EN; simpl; auto).
      apply In_nested_in in Iz as (kr & row & kc & A & B).
      assert (LQ : q < List.length h) by (eapply visits_lt; eauto). destruct (nth_error_lt h q LQ) as [tq Hq].
      assert (Wq : wf_table tq) by apply (Forall_nth_error _ _ _ _ (wh_tables _ WH) Hq).
      rewrite (tab_nth _ _ _ Hq) in *.
      pose proof (Forall_nth_error _ _ _ _ (wf_cells _ Wq) A) as F2. pose proof (Forall2_len _ _ _ F2) as L2.
      assert (kc < List.length row) by (eapply nth_error_some_lt; eauto).
      destruct (nth_error_lt (ctypes tq) kc) as [ct C]; [lia|].
      destruct (nth_error_lt (cnames tq) kc) as [nm C']; [rewrite <- (wf_types_len _ Wq); lia|].
      assert (ct = "*Table"). { destruct (Forall2_nth _ _ _ _ _ F2 C) as (v & Hv & CK). assert (v = VTable (Some z)) by congruence. subst. now destruct CK. }
      subst ct. destruct (visits_complete h p _ V q tq) with (kr := kr) (row := row) as (_ & K); auto.
      destruct (K kc nm _ _ C' C B) as (K1 & _).
      (* the nested cell is looked up in the root *)
      assert (I1 : In (ECell q nm "*Table" (Z.of_nat kc) (Z.of_nat kr)) (tcells evs)) by (apply filter_In; auto).
      assert (LZ : exists z', GetTableByColIndex (tab h p) (Z.of_nat kc) (Z.of_nat kr) = Ok (Some z')).
      { assert (I2 := in_map (look (tab h p)) _ _ I1). rewrite LK in I2. apply in_map_iff in I2 as (z' & E' & _). exists z'. simpl in E'. congruence. }
      destruct LZ as [z' LZ].
      destruct (GetTableByColIndex_eq (tab h p) (Z.of_nat kc) (Z.of_nat kr) W) as [(kc2 & kr2 & row2 & z2 & Ec & Er & A2 & C2 & B2 & G2)|G2]; [|congruence].
      apply Nat2Z.inj in Ec, Er. subst kc2 kr2.
      destruct (nth_error_lt (cnames (tab h p)) kc) as [np CP]; [rewrite <- (wf_types_len _ W); eapply nth_error_some_lt; eauto|].
      destruct (nth_error_lt h p L) as [tp Hp]. rewrite (tab_nth _ _ _ Hp) in *.
      destruct (visits_complete h p _ V p tp) with (kr := kr) (row := row2) as (_ & K'); auto.
      { rewrite (visits_head _ _ _ V). simpl; auto. }
      destruct (K' kc np _ _ CP C2 B2) as (K3 & _).
      assert (I3 : In (ECell p np "*Table" (Z.of_nat kc) (Z.of_nat kr)) (tcells evs)) by (apply filter_In; auto).
      pose proof (NoDup_map_eq _ _ _ _ ND I1 I3 eq_refl) as EE. congruence. }
    split; auto. inversion V; subst. rewrite (tab_nth _ _ _ H) in *.
    destruct (look_own_rows h p t W (rows t) 0 evs0 eq_refl H0) as (_ & _ & Q).
    assert (EQ : map (look t) (tcells evs0) = map (fun q => Ok (Some q)) (nested_in (rows t))).
    { apply Q. intros q qe I VQ. eapply no_tcells; eauto. }
    change (tcells (ETable p :: evs0)) with (tcells evs0) in *. constructor.
    + intros I. destruct (OWN p I) as (_ & _ & _ & _ & _ & _ & I'). apply (D p I'). simpl; auto.
    + rewrite EQ in ND. eapply NoDup_map_inv; eauto.
  - intros FL. destruct (flat_tour h p WH L FL) as (evs & V & TO & LK). destruct FL as [N _]. inversion N; subst.
    destruct (Walk_feed h WH nop nop (nv h p) (fun _ => wret tt) (fun _ _ => wret tt) (nesting_visit p)
      (fun _ _ _ => eq_refl) (fun _ _ _ _ => eq_refl) (nesting_visit_eq h p) (walk_fuel h) p _ [p] V) as (sf & E); auto.
    { simpl. apply nn_NoDup. now rewrite TO. }
    rewrite E. cbn [snd]. change (feed nop nop (nv h p) (ETable p :: evs) [p]) with (feed nop nop (nv h p) evs [p]).
    destruct (feed nop nop (nv h p) evs [p]) as [x' o] eqn:EF.
    assert (FO : feed nop nop (nv h p) evs [p] = (rev (nested_in (rows (tab h p))) ++ [p], Ok tt)).
    { apply feed_nv. split; auto. exists (nested_in (rows (tab h p))). repeat split; auto.
      intros q I [<-|[]]. contradiction. }
    rewrite FO in EF. injection EF as _ <-. reflexivity.
Qed.

Lemma IsValidTableNesting_no_panic h (p : ptr) : wf_heap h -> p < List.length h -> IsValidTableNesting h p <> Panic.
Proof.
  intros WH L. unfold IsValidTableNesting.
  apply (Walk_terminates h WH nop nop (nv h p)); auto; try (intros; reflexivity); try discriminate.
  - intros. apply nesting_visit_eq.
  - intros. now apply nv_no_panic.
Qed.

(** ---------- finite nestings are those without cycles ---------- *)

Lemma nests_tab h p q : nests h p q -> p < List.length h /\ In q (nested_in (rows (tab h p))).
Proof. intros (t & H & I). rewrite (tab_nth _ _ _ H). split; auto. eapply nth_error_some_lt; eauto. Qed.
Lemma tab_nests h p q : p < List.length h -> In q (nested_in (rows (tab h p))) -> nests h p q.
Proof. intros L I. destruct (nth_error_lt h p L) as [t H]. rewrite (tab_nth _ _ _ H) in I. exists t. auto. Qed.

Lemma visits_nested h p q evs : wf_heap h -> visits h p evs -> nests h p q ->
  exists qe, visits h q qe /\ incl qe (tl evs) /\ List.length qe < List.length evs.
Proof.
  intros WH V (t & Hp & I). assert (W : wf_table t) by apply (Forall_nth_error _ _ _ _ (wh_tables _ WH) Hp).
  inversion V; subst. assert (t0 = t) by congruence. subst t0. simpl.
  assert (G : forall rs k evs, visits_rows h p t k rs evs -> Forall (Forall2 cell_ok (ctypes t)) rs -> In q (nested_in rs) ->
    exists qe, visits h q qe /\ incl qe evs /\ List.length qe <= List.length evs).
  { assert (GC : forall r ns cts vs c evs, visits_cells h p t r c ns cts vs evs -> Forall2 cell_ok cts vs -> In q (nested_in [vs]) ->
      exists qe, visits h q qe /\ incl qe evs /\ List.length qe <= List.length evs).
    { intros r. induction ns as [|n ns IH]; intros cts vs c ev VC F J;
        inversion VC as [|? ? ? ? ? ? ct ? v ? ? NE V1|? ? ? ? ? ? ? q0 ? ? ? V0 V1]; subst; [contradiction|..];
        inversion F as [|? ? ? ? CK F']; subst.
      - assert (J' : In q (nested_in [vs0])).
        { destruct v as [| | | | | | |[z|]| |]; auto. destruct CK as [HT _]. simpl in HT. contradiction. }
        destruct (IH _ _ _ _ V1 F' J') as (qe & A & B & C). exists qe. split; auto. split; [now apply incl_tl|simpl; lia].
      - change (nested_in [VTable (Some q0) :: vs0]) with (q0 :: nested_in [vs0]) in J. destruct J as [->|J].
        + exists qe. split; auto. split; [apply incl_tl, incl_appl, incl_refl|simpl; rewrite app_length; lia].
        + destruct (IH _ _ _ _ V1 F' J) as (qe' & A & B & C). exists qe'. split; auto.
          split; [apply incl_tl, incl_appr; auto|simpl; rewrite app_length; lia]. }
    induction rs as [|row rs IH]; intros k ev VR F J; inversion VR as [|? ? ? ? ? ? ? V1 V2]; subst; [contradiction|].
    inversion F as [|? ? F1 F2]; subst.
    rewrite nested_in_cons in J. apply in_app_iff in J as [J|J].
    - destruct (GC _ _ _ _ _ _ V1 F1 J) as (qe & A & B & C). exists qe. split; auto.
      split; [apply incl_tl, incl_appl; auto|simpl; rewrite app_length; lia].
    - destruct (IH _ _ V2 F2 J) as (qe & A & B & C). exists qe. split; auto.
      split; [apply incl_tl, incl_appr; auto|simpl; rewrite app_length; lia]. }
  destruct (G _ _ _ H0 (wf_cells _ W) I) as (qe & A & B & C). exists qe. split; auto. split; auto. lia.
Qed.
Lemma visits_below h p q evs : wf_heap h -> clos_trans _ (nests h) p q -> visits h p evs ->
  exists qe, visits h q qe /\ incl qe (tl evs) /\ List.length qe < List.length evs.
Proof.
  intros WH C. revert evs. induction C as [p q S|p z q C1 I1 C2 I2]; intros evs V.
  - eapply visits_nested; eauto.
  - destruct (I1 evs V) as (ze & VZ & A & L). destruct (I2 ze VZ) as (qe & VQ & B & L'). exists qe. split; auto. split; [|lia].
    intros e J. apply A. apply B in J. destruct ze; simpl in *; auto.
Qed.

Lemma tours_for h (l : list ptr) : (forall q, In q l -> exists qe, visits h q qe) -> exists T, forall q, In q l -> visits h q (T q).
Proof.
  induction l as [|q l IH]; intros H; [exists (fun _ => []); intros q []|].
  destruct IH as [T HT]; [intros; apply H; simpl; auto|]. destruct (H q (or_introl eq_refl)) as [qe V].
  exists (fun z => if Nat.eqb z q then qe else T z). intros z I. destruct (Nat.eqb_spec z q); [now subst|].
  apply HT. destruct I; congruence.
Qed.
Lemma visits_exists_from h p : wf_heap h -> p < List.length h ->
  (forall q, In q (nested_in (rows (tab h p))) -> exists qe, visits h q qe) -> exists evs, visits h p evs.
Proof.
  intros WH L H. destruct (tours_for _ _ H) as [T HT]. destruct (nth_error_lt h p L) as [t Hp]. rewrite (tab_nth _ _ _ Hp) in *.
  assert (W : wf_table t) by apply (Forall_nth_error _ _ _ _ (wh_tables _ WH) Hp).
  destruct (tour_rows h p t T W (rows t) 0 eq_refl HT) as (evs & V & _). exists (ETable p :: evs). econstructor; eauto.
Qed.

Lemma acyclic_visits h p : wf_heap h -> p < List.length h -> ~ circular h p -> exists evs, visits h p evs.
Proof.
  intros WH L NC.
  assert (G : forall n path q, List.length h <= n + List.length path -> NoDup (q :: path) ->
    (forall z, In z (q :: path) -> z < List.length h) ->
    (forall z, In z path -> clos_trans _ (nests h) z q) -> clos_refl_trans _ (nests h) p q -> exists evs, visits h q evs).
  { induction n as [|n IH]; intros path q LN ND B PT PQ.
    - pose proof (NoDup_bounded _ _ ND B) as K. simpl in K. unfold ptr in *. simpl in LN. lia.
    - apply visits_exists_from; auto; [apply B; simpl; auto|]. intros z I.
      assert (NQ : nests h q z) by (apply tab_nests; auto; apply B; simpl; auto).
      assert (PZ : forall y, In y (q :: path) -> clos_trans _ (nests h) y z).
      { intros y [<-|J]; [now constructor|]. eapply t_trans; [apply PT; auto|now constructor]. }
      apply (IH (q :: path)).
      + simpl. lia.
      + constructor; auto. intros J. apply NC. exists z. split; [eapply rt_trans; [apply PQ|now constructor]|]. now apply PZ.
      + intros y [<-|J]; auto. eapply nested_lt; eauto.
      + exact PZ.
      + eapply rt_trans; [apply PQ|now constructor]. }
  apply (G (List.length h) [] p).
  - simpl. lia.
  - constructor; [intros []|constructor].
  - intros z [<-|[]]. exact L.
  - intros z [].
  - apply rt_refl.
Qed.
Lemma visits_reach h p q evs : wf_heap h -> clos_refl_trans _ (nests h) p q -> visits h p evs ->
  exists qe, visits h q qe /\ incl qe evs.
Proof.
  intros WH C. revert evs. apply clos_rt_rt1n in C. induction C as [p|p y q S C IH]; intros evs V.
  - exists evs. split; auto. apply incl_refl.
  - destruct (visits_nested h p y evs WH V S) as (ye & VY & A & _). destruct (IH ye VY) as (qe & VQ & B). exists qe. split; auto.
    intros e J. apply B, A in J. destruct evs; simpl in *; auto.
Qed.
Lemma visits_acyclic h p evs : wf_heap h -> visits h p evs -> ~ circular h p.
Proof.
  intros WH V (q & PQ & QQ). destruct (visits_reach h p q evs WH PQ V) as (qe & VQ & _).
  destruct (visits_below h q q qe WH QQ VQ) as (qe' & VQ' & _ & L). rewrite (visits_det _ _ _ _ VQ VQ') in L. lia.
Qed.

(** The tables of a tour are those reachable from the root. *)
Lemma visits_tables h p evs q : wf_heap h -> visits h p evs -> In q (tables_of evs) <-> clos_refl_trans _ (nests h) p q.
Proof.
  intros WH V. split.
  - revert q. assert (G : (forall p evs, visits h p evs -> forall q, In q (tables_of evs) -> clos_refl_trans _ (nests h) p q)
      /\ (forall p t r rs evs, visits_rows h p t r rs evs -> forall k, nth_error h p = Some t -> rs = skipn k (rows t) ->
            forall q, In q (tables_of evs) -> clos_refl_trans _ (nests h) p q)
      /\ (forall p t r c ns cts vs evs, visits_cells h p t r c ns cts vs evs ->
            nth_error h p = Some t -> (forall q, In q (nested_in [vs]) -> nests h p q) ->
            forall q, In q (tables_of evs) -> clos_refl_trans _ (nests h) p q)).
    { apply visits_all.
      - intros p0 t evs0 Hp V0 IH q [<-|I]; [apply rt_refl|]. eapply (IH 0); eauto.
      - intros p0 t r k _ _ q [].
      - intros p0 t r row rs ce re V1 I1 V2 I2 k Hp E q I. symmetry in E. apply skipn_cons in E as [A A'].
        simpl in I. rewrite tables_of_app, in_app_iff in I. destruct I as [I|I].
        + apply I1; auto. intros z Iz. exists t. split; auto. apply In_nested_in in Iz as (kr & row' & kc & B1 & B2).
          destruct kr as [|kr]; [|destruct kr; discriminate]. injection B1 as <-. apply In_nested_in. eauto.
        + eapply (I2 (S k)); eauto.
      - intros p0 t r c _ _ q [].
      - intros p0 t r c n ns ct cts v vs evs0 NE V0 IH Hp HN q I. apply IH; auto. intros z Iz. apply HN.
        unfold nested_in in *. simpl in *. rewrite app_nil_r in *. apply in_app_iff. auto.
      - intros p0 t r c n ns cts z vs qe evs0 V1 I1 V2 I2 Hp HN q I. simpl in I. rewrite tables_of_app, in_app_iff in I. destruct I as [I|I].
        + eapply rt_trans; [apply rt_step; apply (HN z)|auto]. simpl. auto.
        + apply I2; auto. intros y Iy. apply HN. simpl. auto. }
    destruct G as (G & _). intros q I. eapply G; eauto.
  - intros C. destruct (visits_reach h p q evs WH C V) as (qe & VQ & I). rewrite (visits_head _ _ _ VQ) in I.
    apply in_flat_map. exists (ETable q). split; [apply I; simpl; auto|simpl; auto].
Qed.

(** ---------- recording the events ---------- *)
Definition rec_T : visitor (list event) ptr := fun p x => (ETable p :: x, Ok tt).
Definition rec_R : visitor (list event) (ptr * Z) := fun a x => (ERow (fst a) (snd a) :: x, Ok tt).
Definition rec_C : visitor (list event) cell_info := fun i x => (ECell (ci_tab i) (ci_name i) (ci_type i) (ci_col i) (ci_row i) :: x, Ok tt).
Lemma feed_rec evs : forall x, feed rec_T rec_R rec_C evs x = (rev evs ++ x, Ok tt).
Proof. induction evs as [|[]]; intros x; simpl; auto; rewrite IHevs, <- app_assoc; reflexivity. Qed.
Definition record (h : heap) (p : ptr) : wst (list event) * res unit :=
  Walk (walk_fuel h) true (pure_step rec_T) (fun p r => pure_step rec_R (p, r)) (pure_step rec_C) p (mkW h [] []).
Lemma record_visits h p s : wf_heap h -> p < List.length h -> record h p = (s, Ok tt) -> visits h p (rev (w_x s)).
Proof.
  intros WH L E.
  destruct (Walk_Ok_tour h WH rec_T rec_R rec_C _ _ _ (pure_step_eq rec_T h) (fun p r => pure_step_eq rec_R h (p, r)) (pure_step_eq rec_C h) _ _ _ _ L E)
    as (evs & V & F & _).
  rewrite feed_rec, app_nil_r in F. injection F as F. rewrite <- F, rev_involutive. exact V.
Qed.

(** ---------- a walk that does not enter nested tables ---------- *)
Lemma map_flat_map1 {A B} (f : A -> B) l : map f l = flat_map (fun a => [f a]) l.
Proof. induction l; simpl; congruence. Qed.
Lemma wfor_feed {X A} h vT vR vC (l : list A) (body : A -> W X unit) (ev : A -> list event) :
  (forall a sf x, In a l -> body a (mkW h sf x) = (mkW h sf (fst (feed vT vR vC (ev a) x)), snd (feed vT vR vC (ev a) x))) ->
  forall sf x, wfor l body (mkW h sf x)
    = (mkW h sf (fst (feed vT vR vC (flat_map ev l) x)), snd (feed vT vR vC (flat_map ev l) x)).
Proof.
  induction l as [|a l IH]; intros H sf x; [reflexivity|].
  rewrite wfor_cons. unfold wbind. rewrite H by (simpl; auto). simpl flat_map. rewrite feed_app.
  destruct (feed vT vR vC (ev a) x) as [x1 [u| |]]; simpl; auto. apply IH. intros; apply H; simpl; auto.
Qed.
Lemma Walk_own {X} h (vT : visitor X ptr) (vR : visitor X (ptr * Z)) (vC : visitor X cell_info) fuel p t x :
  wf_heap h -> nth_error h p = Some t -> 1 <= fuel ->
  Walk fuel false (pure_step vT) (fun p r => pure_step vR (p, r)) (pure_step vC) p (mkW h [] x)
  = (mkW h [] (fst (feed vT vR vC (own_tour p t) x)), snd (feed vT vR vC (own_tour p t) x)).
Proof.
  intros WH Hp LF. assert (W : wf_table t) by apply (Forall_nth_error _ _ _ _ (wh_tables _ WH) Hp).
  destruct fuel as [|fuel]; [lia|]. unfold own_tour. cbn [Walk feed]. unfold wbind at 1. rewrite pure_step_eq.
  destruct (vT p x) as [x1 [u| |]]; cbn [fst snd]; auto.
  rewrite wbind_wtab. cbn [w_heap]. rewrite (tab_nth _ _ _ Hp).
  apply wfor_feed. intros r sf y Ir. apply In_zseq in Ir. unfold own_row. cbn [feed]. unfold wbind at 1. rewrite pure_step_eq.
  match goal with |- context [vR ?a y] => destruct (vR a y) as [x2 [u2| |]] end; cbn [fst snd]; auto.
  rewrite wbind_wtab. cbn [w_heap]. rewrite (tab_nth _ _ _ Hp).
  rewrite map_flat_map1.
  apply wfor_feed. intros c sf' z Ic. apply In_zseq in Ic.
  rewrite wbind_wtab. cbn [w_heap]. rewrite (tab_nth _ _ _ Hp), wbind_wlift.
  destruct (nth_error_lt (cnames t) (Z.to_nat c)) as [n Hn]; [lia|].
  destruct (nth_error_lt (ctypes t) (Z.to_nat c)) as [ct Hc]; [rewrite (wf_types_len _ W); lia|].
  assert (GI : GetCellInfoByColIndex p t c r = Ok (mkCI p n ct c r)).
  { unfold GetCellInfoByColIndex. rewrite <- (Z2Nat.id c) by lia. rewrite znth_of_nat, Hc. unfold ColName, ColCount.
    destruct ((Z.of_nat (Z.to_nat c) <? 0) || (Z.of_nat (Z.to_nat c) >? Z.of_nat (List.length (cnames t)) - 1))%Z eqn:B; [lia|].
    rewrite znth_of_nat, Hn. reflexivity. }
  rewrite GI. unfold wbind at 1. rewrite pure_step_eq. rewrite (nth_error_nth _ _ "" Hn), (nth_error_nth _ _ "" Hc).
  cbn [feed andb]. destruct (vC (mkCI p n ct c r) z) as [x3 [u3| |]]; cbn [fst snd]; auto.
Qed.
