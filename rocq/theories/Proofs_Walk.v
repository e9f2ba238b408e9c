(** Proofs_Walk.v -- walks over nested tables. *)
From Coq Require Import ZArith NArith List String Ascii Bool Permutation Relations Lia.
From Verif Require Import Base Model_Names Model_Table Model_Sort Model_Copy Model_Merge Model_Ops Model_Heap.
From Verif Require Import Spec Spec_Sort Spec_Heap Spec_Walk.
From Verif Require Import Proofs_Lib Proofs_Table Proofs_Cells Proofs_Struct Proofs_Api Proofs_Pres Proofs_Heap.
Import ListNotations.
Local Open Scope string_scope.
Local Open Scope list_scope.

Scheme visits_mut := Minimality for visits Sort Prop
  with visits_rows_mut := Minimality for visits_rows Sort Prop
  with visits_cells_mut := Minimality for visits_cells Sort Prop.
Combined Scheme visits_all from visits_mut, visits_rows_mut, visits_cells_mut.

Lemma tables_of_app a b : tables_of (a ++ b) = tables_of a ++ tables_of b.
Proof. apply flat_map_app. Qed.

Lemma feed_app {X} vT vR vC a b (x : X) : feed vT vR vC (a ++ b) x =
  match feed vT vR vC a x with (x', Ok _) => feed vT vR vC b x' | o => o end.
Proof.
  revert x. induction a as [|e a IH]; intros x; simpl; auto.
  destruct e; [destruct (vT _ _) as [x' [u| |]]|destruct (vR _ _) as [x' [u| |]]|destruct (vC _ _) as [x' [u| |]]]; auto.
Qed.

Lemma NoDup_app_inv_intro {A} (a b : list A) : NoDup a -> NoDup b -> (forall x, In x a -> ~ In x b) -> NoDup (a ++ b).
Proof.
  induction a as [|y a IH]; simpl; intros N1 N2 D; auto. inversion N1; subst. constructor.
  - rewrite in_app_iff. intros [I|I]; [contradiction|]. eapply D; eauto.
  - apply IH; auto.
Qed.
Lemma skipn_at {A} (l : list A) k x : nth_error l k = Some x -> skipn k l = x :: skipn (S k) l.
Proof. revert l. induction k; intros [|y l] H; simpl in *; try discriminate; [congruence|]. now apply IHk. Qed.

Lemma in_set_In q l : in_set q l = true <-> In q l.
Proof.
  unfold in_set. rewrite existsb_exists. split.
  - intros (x & I & E). apply Nat.eqb_eq in E. now subst.
  - intros I. exists q. split; auto. apply Nat.eqb_refl.
Qed.

Lemma tab_nth h p t : nth_error h p = Some t -> tab h p = t.
Proof. intros H. unfold tab. now rewrite (nth_error_nth _ _ _ H). Qed.

Lemma wbind_wtab {X B} p (f : table -> W X B) s : wbind (wtab p) f s = f (tab (w_heap s) p) s.
Proof. reflexivity. Qed.
Lemma wbind_wlift {X A B} (r : res A) (f : A -> W X B) s :
  wbind (wlift r) f s = match r with Ok a => f a s | Err => (s, Err) | Panic => (s, Panic) end.
Proof. destruct r; reflexivity. Qed.

(** ---------- one cell ---------- *)

Section Fixed.
Variable h : heap.
Variable WH : wf_heap h.
Variable X : Type.
Variables (vT : visitor X ptr) (vR : visitor X (ptr * Z)) (vC : visitor X cell_info).
Variables (sT : ptr -> W X unit) (sR : ptr -> Z -> W X unit) (sC : cell_info -> W X unit).
Variable HT : forall p sf x, sT p (mkW h sf x) = (mkW h sf (fst (vT p x)), snd (vT p x)).
Variable HR : forall p r sf x, sR p r (mkW h sf x) = (mkW h sf (fst (vR (p, r) x)), snd (vR (p, r) x)).
Variable HC : forall i sf x, sC i (mkW h sf x) = (mkW h sf (fst (vC i x)), snd (vC i x)).

Definition cellbody (fuel : nat) (p : ptr) (ri ci : Z) : W X unit :=
  do* t := wtab p in
  do* info := wlift (GetCellInfoByColIndex p t ci ri) in
  do* _ := sC info in
  if true && (ci_type info =? "*Table") then
    do* t := wtab p in
    do* o := wlift (GetTableByColIndex t ci ri) in
    match o with
    | None => wlift Err
    | Some q =>
        do* tq := wtab q in
        do* _ := (if is_nil tq then wret tt
                  else fun s => if in_set q (w_safe s) then (s, Err)
                                else (mkW (w_heap s) (q :: w_safe s) (w_x s), Ok tt)) in
        Walk fuel true sT sR sC q
    end
  else wret tt.
Definition rowbody (fuel : nat) (p : ptr) (ri : Z) : W X unit :=
  do* _ := sR p ri in
  do* t := wtab p in
  wfor (zseq (List.length (cnames t))) (cellbody fuel p ri).

Lemma Walk_S fuel p sf x : Walk (S fuel) true sT sR sC p (mkW h sf x) =
  match vT p x with
  | (x', Ok _) => wfor (zseq (List.length (rows (tab h p)))) (rowbody fuel p) (mkW h sf x')
  | (x', Err) => (mkW h sf x', Err)
  | (x', Panic) => (mkW h sf x', Panic)
  end.
Proof.
  cbn [Walk]. unfold wbind at 1. rewrite HT. destruct (vT p x) as [x' [u| |]]; reflexivity.
Qed.

Lemma rowbody_eq fuel p ri sf x : rowbody fuel p ri (mkW h sf x) =
  match vR (p, ri) x with
  | (x', Ok _) => wfor (zseq (List.length (cnames (tab h p)))) (cellbody fuel p ri) (mkW h sf x')
  | (x', Err) => (mkW h sf x', Err)
  | (x', Panic) => (mkW h sf x', Panic)
  end.
Proof. unfold rowbody. unfold wbind at 1. rewrite HR. destruct (vR (p, ri) x) as [x' [u| |]]; reflexivity. Qed.

Lemma wbind_sC {B} i (f : unit -> W X B) sf x : wbind (sC i) f (mkW h sf x) =
  match vC i x with
  | (x', Ok a) => f a (mkW h sf x')
  | (x', Err) => (mkW h sf x', Err)
  | (x', Panic) => (mkW h sf x', Panic)
  end.
Proof. unfold wbind. rewrite HC. destruct (vC i x) as [x' [u| |]]; reflexivity. Qed.

Definition nonnil (q : ptr) : bool := negb (is_nil (tab h q)).

Lemma cellbody_eq fuel p t kr kc row n ct v sf x :
  nth_error h p = Some t -> nth_error (rows t) kr = Some row ->
  nth_error (cnames t) kc = Some n -> nth_error (ctypes t) kc = Some ct -> nth_error row kc = Some v ->
  let info := mkCI p n ct (Z.of_nat kc) (Z.of_nat kr) in
  (ct <> "*Table" /\
   cellbody fuel p (Z.of_nat kr) (Z.of_nat kc) (mkW h sf x) = (mkW h sf (fst (vC info x)), snd (vC info x)))
  \/ exists q, ct = "*Table" /\ v = VTable (Some q) /\ q < List.length h /\
   cellbody fuel p (Z.of_nat kr) (Z.of_nat kc) (mkW h sf x) =
     match vC info x with
     | (x', Ok _) => if nonnil q then if in_set q sf then (mkW h sf x', Err)
                                       else Walk fuel true sT sR sC q (mkW h (q :: sf) x')
                     else Walk fuel true sT sR sC q (mkW h sf x')
     | (x', Err) => (mkW h sf x', Err)
     | (x', Panic) => (mkW h sf x', Panic)
     end.
Proof.
  intros Hp Hr Hn Ht Hv info.
  pose proof (tab_nth _ _ _ Hp) as TP.
  assert (W : wf_table t) by apply (Forall_nth_error _ _ _ _ (wh_tables _ WH) Hp).
  assert (LC : kc < List.length (cnames t)) by (eapply nth_error_some_lt; eauto).
  assert (LR : kr < List.length (rows t)) by (eapply nth_error_some_lt; eauto).
  assert (EI : GetCellInfoByColIndex p t (Z.of_nat kc) (Z.of_nat kr) = Ok info).
  { unfold GetCellInfoByColIndex. rewrite znth_of_nat, Ht. unfold ColName, ColCount.
    destruct ((Z.of_nat kc <? 0) || (Z.of_nat kc >? Z.of_nat (List.length (cnames t)) - 1))%Z eqn:B; [lia|].
    rewrite znth_of_nat, Hn. reflexivity. }
  assert (CK : cell_ok ct v).
  { pose proof (Forall_nth_error _ _ _ _ (wf_cells _ W) Hr) as F. destruct (Forall2_nth _ _ _ _ _ F Ht) as (w & H & C).
    rewrite Hv in H. now injection H as ->. }
  unfold cellbody. rewrite wbind_wtab. cbn [w_heap]. rewrite TP, wbind_wlift, EI.
  rewrite wbind_sC. cbn [andb].
  destruct (string_dec ct "*Table") as [->|NE].
  - right. destruct v as [| | |[] z| | |o|[q|]| |]; destruct CK as [CK _]; simpl in CK; try contradiction; try (now inversion CK);
      try (destruct CK; discriminate).
    exists q. split; [auto|]. split; [auto|].
    assert (GV : GetValByColIndex t (Z.of_nat kc) (Z.of_nat kr) = Ok (VTable (Some q))).
    { destruct (wf_cell t W (Z.of_nat kc) (Z.of_nat kr)) as (ct' & v' & T' & _ & C' & OK').
      - unfold ColCount. lia.
      - unfold RowCount. lia.
      - unfold GetValByColIndex. erewrite wf_row_not_nil; eauto; [|unfold RowCount; instantiate (1 := Z.of_nat kr); lia].
        unfold HasRow, HasColByColIndex, RowCount, ColCount.
        destruct ((Z.of_nat kr <? 0) || (Z.of_nat kr >? Z.of_nat (List.length (rows t)) - 1))%Z eqn:B; [lia|].
        destruct ((Z.of_nat kc <? 0) || (Z.of_nat kc >? Z.of_nat (List.length (cnames t)) - 1))%Z eqn:B'; [lia|].
        simpl. unfold cell. rewrite znth_of_nat, Hr, znth_of_nat, Hv. reflexivity. }
    assert (GT : GetTableByColIndex t (Z.of_nat kc) (Z.of_nat kr) = Ok (Some q)).
    { unfold GetTableByColIndex.
      destruct (GetTByColIndex_eq "*Table" t (Z.of_nat kc) (Z.of_nat kr) W) as [(c' & _ & T' & _ & _ & E' & _)|[N _]].
      - now apply str_in_In.
      - rewrite E', GV. reflexivity.
      - exfalso. apply N. exists "*Table". unfold ColCount, RowCount. rewrite Nat2Z.id. repeat split; try lia; auto. now left. }
    split.
    { rewrite <- TP in GT. now apply GetTableByColIndex_lt in GT. }
    destruct (vC info x) as [x' [u| |]]; auto.
    replace (ci_type info =? "*Table") with true by reflexivity. cbv iota.
    rewrite wbind_wtab. cbn [w_heap]. rewrite TP, wbind_wlift, GT.
    rewrite wbind_wtab. cbn [w_heap]. unfold nonnil.
    destruct (is_nil (tab h q)); cbn [negb].
    + unfold wbind, wret. reflexivity.
    + unfold wbind. cbn [w_safe w_heap w_x]. destruct (in_set q sf); reflexivity.
  - left. split; auto. destruct (vC info x) as [x' [u| |]]; simpl; auto.
    destruct (ct =? "*Table") eqn:B; [apply String.eqb_eq in B; contradiction|]. destruct u. reflexivity.
Qed.

(** ---------- a tour determines the walk ---------- *)

Definition nn (evs : list event) : list ptr := filter nonnil (tables_of evs).
Lemma nn_app a b : nn (a ++ b) = nn a ++ nn b.
Proof. unfold nn. now rewrite tables_of_app, filter_app. Qed.

(** The result of a walk that follows evs. *)
Definition follows (evs : list event) (ms : list ptr) (sf : list ptr) (x : X) (o : wst X * res unit) : Prop :=
  exists sf', o = (mkW h sf' (fst (feed vT vR vC evs x)), snd (feed vT vR vC evs x))
    /\ (snd (feed vT vR vC evs x) = Ok tt -> forall q, In q sf' <-> In q ms \/ In q sf).

Lemma follows_fail evs ms sf x sf' x' r : feed vT vR vC evs x = (x', r) -> r <> Ok tt -> follows evs ms sf x (mkW h sf' x', r).
Proof. intros E N. exists sf'. rewrite E. split; auto. intros; contradiction. Qed.

Lemma follows_seq a b ma mb sf x (m k : W X unit) : follows a ma sf x (m (mkW h sf x)) ->
  (forall sf' x', (forall q, In q sf' <-> In q ma \/ In q sf) -> follows b mb sf' x' (k (mkW h sf' x'))) ->
  follows (a ++ b) (ma ++ mb) sf x (wbind m (fun _ => k) (mkW h sf x)).
Proof.
  intros (sf' & E & S) K. unfold wbind. rewrite E. unfold follows. rewrite feed_app.
  destruct (feed vT vR vC a x) as [x' [u| |]] eqn:F; simpl in *.
  - destruct u. destruct (K sf' x' (S eq_refl)) as (sf2 & E2 & S2). exists sf2. split; auto.
    intros O q. rewrite (S2 O), (S eq_refl), in_app_iff. tauto.
  - exists sf'. split; auto. discriminate.
  - exists sf'. split; auto. discriminate.
Qed.

Definition fuel_ok (p : ptr) (n fuel : nat) : Prop := if is_nil (tab h p) then 1 <= fuel else n + 2 <= fuel.

Lemma wfor_cons {A} (a : A) l (body : A -> W X unit) : wfor (a :: l) body = wbind (body a) (fun _ => wfor l body).
Proof. reflexivity. Qed.

Lemma skipn_cons {A} k (l : list A) x r : skipn k l = x :: r -> nth_error l k = Some x /\ skipn (S k) l = r.
Proof.
  revert l. induction k; intros [|y l] H; simpl in *; try discriminate.
  - injection H as -> ->. auto.
  - apply IHk in H. auto.
Qed.

Lemma NoDup_app_inv {A} (a b : list A) : NoDup (a ++ b) -> NoDup a /\ NoDup b /\ forall x, In x a -> ~ In x b.
Proof.
  induction a as [|y a IH]; simpl; intros H; [repeat split; auto; constructor|].
  inversion H as [|? ? N D]; subst. destruct (IH D) as (A1 & A2 & A3). repeat split; auto.
  - constructor; auto. intros I. apply N. apply in_app_iff. auto.
  - intros x [<-|I] J; [apply N; apply in_app_iff; auto|]. eapply A3; eauto.
Qed.

Lemma Walk_follows :
  (forall p evs, visits h p evs -> forall fuel sf x, fuel_ok p (List.length (nn (tl evs))) fuel ->
     NoDup (nn (tl evs)) -> (forall q, In q (nn (tl evs)) -> ~ In q sf) ->
     follows evs (nn (tl evs)) sf x (Walk fuel true sT sR sC p (mkW h sf x)))
  /\ (forall p t r rs evs, visits_rows h p t r rs evs -> forall k fuel sf x,
     nth_error h p = Some t -> r = Z.of_nat k -> rs = skipn k (rows t) -> List.length (nn evs) < fuel ->
     NoDup (nn evs) -> (forall q, In q (nn evs) -> ~ In q sf) ->
     follows evs (nn evs) sf x (wfor (map Z.of_nat (seq k (List.length rs))) (rowbody fuel p) (mkW h sf x)))
  /\ (forall p t r c ns cts vs evs, visits_cells h p t r c ns cts vs evs -> forall kr kc row fuel sf x,
     nth_error h p = Some t -> r = Z.of_nat kr -> c = Z.of_nat kc -> nth_error (rows t) kr = Some row ->
     ns = skipn kc (cnames t) -> cts = skipn kc (ctypes t) -> vs = skipn kc row -> List.length (nn evs) < fuel ->
     NoDup (nn evs) -> (forall q, In q (nn evs) -> ~ In q sf) ->
     follows evs (nn evs) sf x (wfor (map Z.of_nat (seq kc (List.length ns))) (cellbody fuel p r) (mkW h sf x))).
Proof.
  apply visits_all.
  - (* table *) intros p t evs Hp VR IH fuel sf x FU ND DJ. cbn [tl] in *.
    unfold fuel_ok in FU. rewrite (tab_nth _ _ _ Hp) in FU.
    destruct fuel as [|fuel]; [destruct (is_nil t); lia|].
    rewrite Walk_S. destruct (vT p x) as [x' [u| |]] eqn:EV.
    + rewrite (tab_nth _ _ _ Hp).
      assert (Lf : List.length (nn evs) < fuel \/ rows t = []).
      { destruct (is_nil t) eqn:N; [right|left; lia].
        assert (W : wf_table t) by apply (Forall_nth_error _ _ _ _ (wh_tables _ WH) Hp).
        destruct (wf_name _ W) as [[F _]|(_ & _ & _ & R)]; [congruence|auto]. }
      destruct Lf as [Lf|Lf].
      * destruct (IH 0 fuel sf x' Hp eq_refl eq_refl Lf ND DJ) as (sf' & E & S).
        exists sf'. cbn [feed]. rewrite EV. destruct u. auto.
      * rewrite Lf in *. inversion VR; subst.
        exists sf. cbn [feed]. rewrite EV. simpl. destruct u. split; auto. intros _ q. simpl. tauto.
    + eapply follows_fail; [cbn [feed]; rewrite EV; reflexivity|discriminate].
    + eapply follows_fail; [cbn [feed]; rewrite EV; reflexivity|discriminate].
  - (* no row *) intros p t r k fuel sf x _ _ _ _ _ _. exists sf. simpl. split; auto. intros _ q. tauto.
  - (* row *) intros p t r row rs ce re _ IC _ IR k fuel sf x Hp -> Hrs FU ND DJ.
    symmetry in Hrs. apply skipn_cons in Hrs as [Hr Hrs].
    change (ERow p (Z.of_nat k) :: ce ++ re) with ((ERow p (Z.of_nat k) :: ce) ++ re) in *. rewrite nn_app in *.
    rewrite app_length in FU. apply NoDup_app_inv in ND as (N1 & N2 & N3).
    simpl map. rewrite wfor_cons. apply follows_seq.
    + rewrite rowbody_eq, (tab_nth _ _ _ Hp). destruct (vR (p, Z.of_nat k) x) as [x' [u| |]] eqn:EV.
      * assert (WT : wf_table t) by apply (Forall_nth_error _ _ _ _ (wh_tables _ WH) Hp).
        destruct (IC k 0 row fuel sf x' Hp eq_refl eq_refl Hr eq_refl eq_refl eq_refl) as (sf' & E & S);
          [change (nn (ERow p (Z.of_nat k) :: ce)) with (nn ce) in *; lia|exact N1| |].
        { intros q Q. apply DJ. apply in_app_iff. left. exact Q. }
        exists sf'. cbn [feed]. rewrite EV. destruct u. auto.
      * eapply follows_fail; [cbn [feed]; rewrite EV; reflexivity|discriminate].
      * eapply follows_fail; [cbn [feed]; rewrite EV; reflexivity|discriminate].
    + intros sf' x' HS. apply (IR (S k) fuel sf' x' Hp); auto; try lia.
      intros q Q J. apply HS in J as [J|J]; [eapply N3; eauto|]. eapply DJ; [|exact J]. apply in_app_iff. auto.
  - (* no cell *) intros p t r c kr kc row fuel sf x _ _ _ _ _ _ _ _ _ _. exists sf. simpl. split; auto. intros _ q. tauto.
  - (* plain cell *) intros p t r c n ns ct cts v vs evs NE _ IH kr kc row fuel sf x Hp -> -> Hr Hn Hc Hv FU ND DJ.
    symmetry in Hn, Hc, Hv. apply skipn_cons in Hn as [Hn Hns], Hc as [Hc Hcs], Hv as [Hv Hvs].
    simpl map. rewrite wfor_cons.
    change (ECell p n ct (Z.of_nat kc) (Z.of_nat kr) :: evs) with ([ECell p n ct (Z.of_nat kc) (Z.of_nat kr)] ++ evs) in *.
    rewrite nn_app in *. apply follows_seq.
    + destruct (cellbody_eq fuel p t kr kc row n ct v sf x Hp Hr Hn Hc Hv) as [[_ E]|(q & E & _)]; [|contradiction].
      rewrite E. exists sf. simpl. destruct (vC _ x) as [x' [[]| |]]; simpl; split; auto; intros; tauto || discriminate.
    + intros sf' x' HS. apply (IH kr (S kc) row fuel sf' x' Hp); auto; try lia.
      intros q Q J. apply HS in J as [J|J]; [destruct J|]. eapply DJ; [|exact J]. exact Q.
  - (* nested table *) intros p t r c n ns cts q vs qe evs VQ IQ _ IH kr kc row fuel sf x Hp -> -> Hr Hn Hc Hv FU ND DJ.
    symmetry in Hn, Hc, Hv. apply skipn_cons in Hn as [Hn Hns], Hc as [Hc Hcs], Hv as [Hv Hvs].
    simpl map. rewrite wfor_cons.
    change (ECell p n "*Table" (Z.of_nat kc) (Z.of_nat kr) :: qe ++ evs) with ((ECell p n "*Table" (Z.of_nat kc) (Z.of_nat kr) :: qe) ++ evs) in *.
    rewrite nn_app in *. rewrite app_length in FU. apply NoDup_app_inv in ND as (N1 & N2 & N3). apply follows_seq.
    + change (nn (ECell p n "*Table" (Z.of_nat kc) (Z.of_nat kr) :: qe)) with (nn qe) in *.
      destruct (cellbody_eq fuel p t kr kc row n "*Table" (VTable (Some q)) sf x Hp Hr Hn Hc Hv) as [[E _]|(q' & _ & E' & Lq & E)]; [contradiction|].
      injection E' as <-. rewrite E.
      assert (QE : exists e', qe = ETable q :: e') by (inversion VQ; eauto). destruct QE as [e' ->]. cbn [tl] in IQ.
      assert (NQ : nn (ETable q :: e') = if nonnil q then q :: nn e' else nn e').
      { unfold nn. simpl. destruct (nonnil q); reflexivity. }
      rewrite NQ in *.
      destruct (vC _ x) as [x' [[]| |]] eqn:EV;
        [|eapply follows_fail; [cbn [feed]; rewrite EV; reflexivity|discriminate]..].
      destruct (nonnil q) eqn:NNq.
      * assert (NI : in_set q sf = false).
        { destruct (in_set q sf) eqn:B; auto. apply in_set_In in B. exfalso. eapply DJ; [|exact B]. simpl. auto. }
        rewrite NI. inversion N1; subst. destruct (IQ fuel (q :: sf) x') as (sf' & EW & S); auto.
        { unfold fuel_ok. unfold nonnil in NNq. apply negb_true_iff in NNq. rewrite NNq. simpl in FU. lia. }
        { intros z Z [<-|J]; [contradiction|]. eapply DJ; [|exact J]. apply in_app_iff. left. now right. }
        unfold follows. exists sf'. cbn [feed] in *. rewrite EV. split; auto. intros O z. rewrite (S O). simpl. tauto.
      * destruct (IQ fuel sf x') as (sf' & EW & S); auto.
        { unfold fuel_ok. unfold nonnil in NNq. apply negb_false_iff in NNq. rewrite NNq. lia. }
        { intros z Z J. eapply DJ; [|exact J]. apply in_app_iff. auto. }
        unfold follows. exists sf'. cbn [feed] in *. rewrite EV. auto.
    + intros sf' x' HS. apply (IH kr (S kc) row fuel sf' x' Hp); auto; try lia.
      intros z Q J. apply HS in J as [J|J]; [eapply N3; eauto|]. eapply DJ; [|exact J]. apply in_app_iff. auto.
Qed.

(** ---------- a successful walk has followed a tour ---------- *)

Definition ok_run (evs : list event) (sf : list ptr) (x : X) (s' : wst X) : Prop :=
  feed vT vR vC evs x = (w_x s', Ok tt) /\ w_heap s' = h /\ NoDup (nn evs)
  /\ (forall q, In q (nn evs) -> ~ In q sf) /\ (forall q, In q (w_safe s') <-> In q (nn evs) \/ In q sf).

Lemma ok_run_nil sf x : ok_run [] sf x (mkW h sf x).
Proof. repeat split; auto; simpl; try constructor; tauto. Qed.
Lemma ok_run_one e sf x x' : feed vT vR vC [e] x = (x', Ok tt) -> nn [e] = [] -> ok_run [e] sf x (mkW h sf x').
Proof. intros F N. unfold ok_run. rewrite N, F. repeat split; auto; simpl; try constructor; tauto. Qed.
Lemma ok_run_app a b sf x s1 s2 : ok_run a sf x s1 -> ok_run b (w_safe s1) (w_x s1) s2 -> ok_run (a ++ b) sf x s2.
Proof.
  intros (F1 & H1 & N1 & D1 & S1) (F2 & H2 & N2 & D2 & S2). unfold ok_run. rewrite feed_app, F1, nn_app. repeat split; auto.
  - apply NoDup_app_inv_intro; auto. intros q A B. apply D2 in B. apply B. apply S1. auto.
  - intros q I J. apply in_app_iff in I as [I|I]; [eapply D1; eauto|]. apply D2 in I. apply I. apply S1. auto.
  - intros I. apply S2 in I. rewrite S1 in I. rewrite in_app_iff. tauto.
  - intros I. apply S2. rewrite S1. rewrite in_app_iff in I. tauto.
Qed.
Lemma wst_eta (s : wst X) : w_heap s = h -> s = mkW h (w_safe s) (w_x s).
Proof. destruct s. simpl. now intros ->. Qed.
Lemma wbind_ok {A B} (m : W X A) (f : A -> W X B) s s' b : wbind m f s = (s', Ok b) ->
  exists s1 a, m s = (s1, Ok a) /\ f a s1 = (s', Ok b).
Proof. unfold wbind. destruct (m s) as [s1 [a| |]]; intros E; try discriminate. eauto. Qed.

Lemma Walk_ok fuel : forall p sf x s', p < List.length h -> Walk fuel true sT sR sC p (mkW h sf x) = (s', Ok tt) ->
  exists evs, visits h p (ETable p :: evs) /\ feed vT vR vC (ETable p :: evs) x = (w_x s', Ok tt)
    /\ w_heap s' = h /\ NoDup (nn evs)
    /\ (forall q, In q (nn evs) -> ~ In q sf) /\ (forall q, In q (w_safe s') <-> In q (nn evs) \/ In q sf).
Proof.
  induction fuel as [|fuel IH]; intros p sf x s' Lp E; [discriminate|].
  destruct (nth_error_lt h p Lp) as [t Hp].
  assert (WT : wf_table t) by apply (Forall_nth_error _ _ _ _ (wh_tables _ WH) Hp).
  rewrite Walk_S, (tab_nth _ _ _ Hp) in E. destruct (vT p x) as [x1 [u| |]] eqn:EV; try discriminate.
  (* cells *)
  assert (CELLS : forall kr row, nth_error (rows t) kr = Some row -> forall ns kc sf x s1,
    ns = skipn kc (cnames t) ->
    wfor (map Z.of_nat (seq kc (List.length ns))) (cellbody fuel p (Z.of_nat kr)) (mkW h sf x) = (s1, Ok tt) ->
    exists evs, visits_cells h p t (Z.of_nat kr) (Z.of_nat kc) ns (skipn kc (ctypes t)) (skipn kc row) evs /\ ok_run evs sf x s1).
  { intros kr row Hr. induction ns as [|n ns IHn]; intros kc sf0 x0 s1 Hns EW.
    - simpl in EW. injection EW as <-. exists []. split; [|apply ok_run_nil].
      assert (L : List.length (cnames t) <= kc).
      { destruct (le_lt_dec (List.length (cnames t)) kc); auto. destruct (nth_error_lt (cnames t) kc) as [y Hy]; auto.
        rewrite <- (Nat.add_0_r kc), <- nth_error_skipn, <- Hns in Hy. discriminate. }
      rewrite !skipn_all2; [constructor| |].
      + rewrite <- (Forall2_len _ _ _ (Forall_nth_error _ _ _ _ (wf_cells _ WT) Hr)), (wf_types_len _ WT). auto.
      + now rewrite (wf_types_len _ WT).
    - symmetry in Hns. apply skipn_cons in Hns as [Hn Hns]. simpl map in EW. rewrite wfor_cons in EW.
      apply wbind_ok in EW as (s2 & u2 & EB & EW). destruct u2.
      assert (Lk : kc < List.length (cnames t)) by (eapply nth_error_some_lt; eauto).
      destruct (nth_error_lt (ctypes t) kc) as [ct Hc]; [now rewrite (wf_types_len _ WT)|].
      destruct (Forall2_nth _ _ _ _ _ (Forall_nth_error _ _ _ _ (wf_cells _ WT) Hr) Hc) as (v & Hv & CK).
      rewrite (skipn_at _ _ _ Hc), (skipn_at _ _ _ Hv).
      destruct (cellbody_eq fuel p t kr kc row n ct v sf0 x0 Hp Hr Hn Hc Hv) as [[NE EC]|(q & -> & -> & Lq & EC)].
      + rewrite EC in EB. injection EB as <- SO.
        destruct (IHn (S kc) sf0 _ s1 (eq_sym Hns) EW) as (evs & V & R). exists (ECell p n ct (Z.of_nat kc) (Z.of_nat kr) :: evs).
        split; [apply vis_cell; auto; replace (Z.of_nat kc + 1)%Z with (Z.of_nat (S kc)) by lia; exact V|].
        change (ECell p n ct (Z.of_nat kc) (Z.of_nat kr) :: evs) with ([ECell p n ct (Z.of_nat kc) (Z.of_nat kr)] ++ evs).
        eapply (ok_run_app _ _ _ _ (mkW h sf0 _)); [|exact R]. apply ok_run_one; auto. simpl.
        destruct (vC _ x0) as [x2 o2]. simpl in *. now subst.
      + rewrite EC in EB. destruct (vC _ x0) as [x2 [[]| |]] eqn:EVC; try discriminate.
        assert (QR : exists qe, visits h q qe /\ ok_run qe sf0 x2 s2).
        { destruct (nonnil q) eqn:NNq.
          - destruct (in_set q sf0) eqn:IS; [discriminate|].
            destruct (IH q (q :: sf0) x2 s2 Lq EB) as (qe & VQ & FQ & HQ & NQ & DQ & SQ). exists (ETable q :: qe). split; auto.
            assert (NQE : nn (ETable q :: qe) = q :: nn qe) by (unfold nn; simpl; now rewrite NNq).
            unfold ok_run. rewrite NQE. repeat split; auto.
            + constructor; auto. intros I. apply (DQ q I). simpl. auto.
            + intros z [<-|I] J; [apply in_set_In in J; congruence|]. apply (DQ z I). simpl. auto.
            + intros I. apply SQ in I. simpl in *. tauto.
            + intros I. apply SQ. simpl in *. tauto.
          - destruct (IH q sf0 x2 s2 Lq EB) as (qe & VQ & FQ & HQ & NQ & DQ & SQ). exists (ETable q :: qe). split; auto.
            assert (NQE : nn (ETable q :: qe) = nn qe) by (unfold nn; simpl; now rewrite NNq).
            unfold ok_run. rewrite NQE. repeat split; auto; apply SQ. }
        destruct QR as (qe & VQ & RQ).
        assert (H2 : w_heap s2 = h) by apply RQ. rewrite (wst_eta s2 H2) in EW.
        destruct (IHn (S kc) _ _ s1 (eq_sym Hns) EW) as (evs & V & R).
        exists (ECell p n "*Table" (Z.of_nat kc) (Z.of_nat kr) :: qe ++ evs). split.
        * apply vis_nested; auto. replace (Z.of_nat kc + 1)%Z with (Z.of_nat (S kc)) by lia; exact V.
        * change (ECell p n "*Table" (Z.of_nat kc) (Z.of_nat kr) :: qe ++ evs) with ([ECell p n "*Table" (Z.of_nat kc) (Z.of_nat kr)] ++ (qe ++ evs)).
          eapply (ok_run_app _ _ _ _ (mkW h sf0 x2)); [|eapply ok_run_app; [|exact R]; exact RQ]. apply ok_run_one; auto. simpl. now rewrite EVC. }
  (* rows *)
  assert (ROWS : forall rs k sf x s1, rs = skipn k (rows t) ->
    wfor (map Z.of_nat (seq k (List.length rs))) (rowbody fuel p) (mkW h sf x) = (s1, Ok tt) ->
    exists evs, visits_rows h p t (Z.of_nat k) rs evs /\ ok_run evs sf x s1).
  { induction rs as [|row rs IHr]; intros k sf0 x0 s1 Hrs EW.
    - simpl in EW. injection EW as <-. exists []. split; [constructor|apply ok_run_nil].
    - symmetry in Hrs. apply skipn_cons in Hrs as [Hr Hrs]. simpl map in EW. rewrite wfor_cons in EW.
      apply wbind_ok in EW as (s2 & u2 & EB & EW). destruct u2.
      rewrite rowbody_eq, (tab_nth _ _ _ Hp) in EB. match type of EB with context [vR ?a ?b] => destruct (vR a b) as [x2 [[]| |]] eqn:EVR end; try discriminate.
      destruct (CELLS k row Hr (cnames t) 0 sf0 x2 s2 eq_refl EB) as (ce & VC & RC).
      assert (H2 : w_heap s2 = h) by apply RC. rewrite (wst_eta s2 H2) in EW.
      destruct (IHr (S k) _ _ s1 (eq_sym Hrs) EW) as (re & V & R).
      exists (ERow p (Z.of_nat k) :: ce ++ re). split.
      + constructor; auto. replace (Z.of_nat k + 1)%Z with (Z.of_nat (S k)) by lia; exact V.
      + change (ERow p (Z.of_nat k) :: ce ++ re) with ([ERow p (Z.of_nat k)] ++ (ce ++ re)).
        eapply (ok_run_app _ _ _ _ (mkW h sf0 x2)); [|eapply ok_run_app; [|exact R]; exact RC]. apply ok_run_one; auto. cbn [feed]. now rewrite EVR. }
  destruct (ROWS (rows t) 0 sf x1 s' eq_refl E) as (evs & V & F & H' & R).
  exists evs. split; [econstructor; eauto|]. split; auto. cbn [feed]. now rewrite EV.
Qed.

(** ---------- a walk terminates ---------- *)

Variable NPT : forall p x, snd (vT p x) <> Panic.
Variable NPR : forall p x, snd (vR p x) <> Panic.
Variable NPC : forall p x, snd (vC p x) <> Panic.

Definition safe_set (sf : list ptr) : Prop := NoDup sf /\ forall q, In q sf -> q < List.length h.
Lemma safe_len sf : safe_set sf -> List.length sf <= List.length h.
Proof.
  intros [N B]. rewrite <- (seq_length (List.length h) 0). apply NoDup_incl_length; auto.
  intros q Q. apply in_seq. specialize (B q Q). lia.
Qed.
Definition fine (sf : list ptr) (o : wst X * res unit) : Prop :=
  snd o <> Panic /\ exists sf' x', fst o = mkW h sf' x' /\ safe_set sf' /\ List.length sf <= List.length sf'.
Lemma fine_stop sf x r : safe_set sf -> r <> Panic -> fine sf (mkW h sf x, r).
Proof. intros S N. split; auto. exists sf, x. auto. Qed.
Lemma fine_for {A} (P : A -> Prop) l (body : A -> W X unit) n :
  (forall a sf x, P a -> safe_set sf -> n <= List.length sf -> fine sf (body a (mkW h sf x))) ->
  forall sf x, Forall P l -> safe_set sf -> n <= List.length sf -> fine sf (wfor l body (mkW h sf x)).
Proof.
  intros H. induction l as [|a l IH]; intros sf x F S L; [apply fine_stop; auto; discriminate|].
  inversion F; subst. rewrite wfor_cons. unfold wbind.
  destruct (H a sf x) as [NP (sf' & x' & E & S' & L')]; auto.
  destruct (body a (mkW h sf x)) as [s1 [u| |]]; simpl in *; subst.
  - destruct (IH sf' x') as [NP2 (sf2 & x2 & E2 & S2 & L2)]; auto; [lia|]. split; auto. exists sf2, x2. repeat split; auto; try apply S2. lia.
  - split; [discriminate|]. exists sf', x'. auto.
  - contradiction.
Qed.

Lemma Walk_fine fuel : forall p sf x, p < List.length h -> safe_set sf ->
  (if is_nil (tab h p) then 1 <= fuel else List.length h + 2 <= fuel + List.length sf) ->
  fine sf (Walk fuel true sT sR sC p (mkW h sf x)).
Proof.
  induction fuel as [|fuel IH]; intros p sf x Lp S FU.
  { destruct (is_nil (tab h p)); [lia|]. pose proof (safe_len sf S). lia. }
  destruct (nth_error_lt h p Lp) as [t Hp].
  assert (WT : wf_table t) by apply (Forall_nth_error _ _ _ _ (wh_tables _ WH) Hp).
  rewrite Walk_S. rewrite (tab_nth _ _ _ Hp) in *. pose proof (NPT p x) as NT.
  destruct (vT p x) as [x1 [u| |]]; [|apply fine_stop; auto..].
  destruct (is_nil t) eqn:NI.
  { destruct (wf_name _ WT) as [[F _]|(_ & _ & _ & R)]; [congruence|]. rewrite R. apply fine_stop; auto. discriminate. }
  apply (fine_for (fun z => In z (zseq (List.length (rows t)))) _ _ (List.length sf)); auto; [|now apply Forall_forall].
  intros r sf1 y1 Pr S1 L1. apply In_zseq in Pr. rewrite rowbody_eq, (tab_nth _ _ _ Hp). pose proof (NPR (p, r) y1) as NR.
  match goal with |- context [vR ?a ?b] => change (snd (vR a b) <> Panic) in NR; destruct (vR a b) as [y2 [u2| |]] end; [|apply fine_stop; auto..].
  apply (fine_for (fun z => In z (zseq (List.length (cnames t)))) _ _ (List.length sf)); auto; [|now apply Forall_forall].
  intros c sf2 y3 Pc S2 L2. apply In_zseq in Pc.
  destruct (nth_error_lt (rows t) (Z.to_nat r)) as [row Hr]; [lia|].
  destruct (nth_error_lt (cnames t) (Z.to_nat c)) as [n Hn]; [lia|].
  destruct (nth_error_lt (ctypes t) (Z.to_nat c)) as [ct Hc]; [rewrite (wf_types_len _ WT); lia|].
  destruct (Forall2_nth _ _ _ _ _ (Forall_nth_error _ _ _ _ (wf_cells _ WT) Hr) Hc) as (v & Hv & CK).
  destruct (cellbody_eq fuel p t _ _ row n ct v sf2 y3 Hp Hr Hn Hc Hv) as [[NE EC]|(q & -> & -> & Lq & EC)];
    rewrite !Z2Nat.id in EC by lia; rewrite EC.
  - apply fine_stop; auto.
  - pose proof (NPC (mkCI p n "*Table" c r) y3) as NC.
    destruct (vC _ y3) as [y4 [u4| |]]; [|apply fine_stop; auto..].
    pose proof (safe_len sf2 S2). destruct (nonnil q) eqn:NNq; unfold nonnil in NNq.
    + destruct (in_set q sf2) eqn:IS; [apply fine_stop; auto; discriminate|].
      assert (S3 : safe_set (q :: sf2)).
      { destruct S2 as [A B]. split.
        - constructor; auto. intros I. apply in_set_In in I. congruence.
        - intros z [<-|I]; auto. }
      destruct (IH q (q :: sf2) y4 Lq S3) as [NP (sf' & x' & E & S' & L')].
      { apply negb_true_iff in NNq. rewrite NNq. simpl. lia. }
      split; auto. exists sf', x'. repeat split; auto; try apply S'. simpl in L'. lia.
    + apply IH; auto. apply negb_false_iff in NNq. rewrite NNq. lia.
Qed.
End Fixed.
