(** Proofs_SameTree.v -- deep copies are written as the same JSON text (C67). *)
From Coq Require Import ZArith NArith List String Ascii Bool SpecFloat Lia Relations.
From Verif Require Import Base Model_Names Model_Table Model_Sort Model_Ops Model_Heap Model_TableSet Model_Lex Model_Float Model_Time
  Model_Parser Model_Print Model_Json Model_Yaml Model_Gob Spec Spec_Sort Spec_Heap Spec_Walk Spec_Equals Spec_TableSet Spec_Text Spec_Json Spec_Gob Proofs_Struct Proofs_Api Proofs_Copy Proofs_JsonText
  Proofs_Lib Proofs_Table Proofs_Cells Proofs_Api2 Samples Proofs_Pres Proofs_Heap Proofs_Walk Proofs_TableSet Proofs_JsonWrite Proofs_JsonRead Proofs_JsonTree.
Import ListNotations.
Local Open Scope string_scope.
Local Open Scope list_scope.

Lemma each_same {A} (f g : A -> list ptr -> res (string * list ptr)) l :
  (forall x seen s sn seen' s' sn', In x l -> f x seen = Ok (s, sn) -> g x seen' = Ok (s', sn') -> s = s') ->
  forall seen ss sn seen' ss' sn', write_each f l seen = Ok (ss, sn) -> write_each g l seen' = Ok (ss', sn') -> ss = ss'.
Proof.
  induction l as [|x l IH]; intros X seen ss sn seen' ss' sn' F G; cbn [write_each] in *; [congruence|].
  destruct (f x seen) as [[s1 n1]| |] eqn:F1; cbn [rbind] in F; try discriminate F. destruct (g x seen') as [[s2 n2]| |] eqn:G1; cbn [rbind] in G; try discriminate G.
  destruct (write_each f l n1) as [[r1 m1]| |] eqn:F2; cbn [rbind] in F; try discriminate F. destruct (write_each g l n2) as [[r2 m2]| |] eqn:G2; cbn [rbind] in G; try discriminate G.
  injection F as <- <-. injection G as <- <-. f_equal; [exact (X x _ _ _ _ _ _ (or_introl eq_refl) F1 G1)|]. eapply IH; eauto. intros; eapply X; eauto. now right.
Qed.

Section Copies.
Variables (ip : Z -> bool) (h h' : heap).
Hypothesis W : wf_heap h.
Hypothesis W' : wf_heap h'.

Lemma tab_wf' (g : heap) p : wf_heap g -> wf_table (tab g p).
Proof.
  intros X. unfold tab. destruct (nth_in_or_default p g NewNilTable) as [I|D]; [|rewrite D; apply wf_NewNilTable]. exact (proj1 (Forall_forall _ _) (wh_tables _ X) _ I).
Qed.

Lemma cell_same write write' p p' ri ci v w (R : ptr -> ptr -> Prop) seen s sn seen' s' sn' :
  is_nil (tab h p) = false -> is_nil (tab h' p') = false -> cnames (tab h' p') = cnames (tab h p) -> ctypes (tab h' p') = ctypes (tab h p) ->
  at_cell (tab h p) ci ri = Some v -> at_cell (tab h' p') ci ri = Some w -> same_cell h h' R v w ->
  (forall q q' seen s sn seen' s' sn', is_nil (tab h q) = false -> R q q' -> write q seen = Ok (s, sn) -> write' q' seen' = Ok (s', sn') -> is_nil (tab h' q') = false /\ s = s') ->
  (forall q q', R q q' -> is_nil (tab h' q') = false) ->
  json_cell ip h write (tab h p) (Z.of_nat ri) (Z.of_nat ci) seen = Ok (s, sn) ->
  json_cell ip h' write' (tab h' p') (Z.of_nat ri) (Z.of_nat ci) seen' = Ok (s', sn') -> s = s'.
Proof.
  intros N N' CN CT A A' SC WR NR. pose proof (tab_wf' h p W) as Wt. pose proof (tab_wf' h' p' W') as Wt'.
  destruct (at_cell_range _ _ _ _ Wt A) as [Hc Hr].
  destruct (nth_error (cnames (tab h p)) ci) as [cn|] eqn:Ncn; [|apply nth_error_None in Ncn; lia].
  destruct (nth_error (ctypes (tab h p)) ci) as [ct|] eqn:Nct; [|apply nth_error_None in Nct; rewrite (wf_types_len _ Wt) in Nct; lia].
  assert (G : forall (g : heap) (z : ptr) x, wf_table (tab g z) -> at_cell (tab g z) ci ri = Some x -> GetValByColIndex (tab g z) (Z.of_nat ci) (Z.of_nat ri) = Ok x).
  { intros g z x Wz Ax. destruct (at_cell_range _ _ _ _ Wz Ax) as [Hc2 Hr2]. rewrite get_at by auto. rewrite !Nat2Z.id, Ax. rewrite !(proj2 (Z.leb_le _ _)) by lia. reflexivity. }
  assert (Gt : forall (g : heap) (z q : ptr), wf_table (tab g z) -> nth_error (ctypes (tab g z)) ci = Some ct -> at_cell (tab g z) ci ri = Some (VTable (Some q)) -> GetTableByColIndex (tab g z) (Z.of_nat ci) (Z.of_nat ri) = Ok (Some q)).
  { intros g z q Wz Cz Ax. destruct (at_cell_range _ _ _ _ Wz Ax) as [Hc2 Hr2]. pose proof (at_cell_ok _ _ _ _ _ Wz Ax Cz) as [HT _]. cbn [has_type] in HT. subst ct. unfold GetTableByColIndex.
    destruct (GetTByColIndex_eq "*Table" (tab g z) (Z.of_nat ci) (Z.of_nat ri) Wz ltac:(now apply str_in_In)) as [(_ & _ & _ & _ & _ & E & _)|[No _]].
    - rewrite E, (G g z _ Wz Ax). reflexivity.
    - elim No. exists "*Table". rewrite Nat2Z.id. unfold ColCount, RowCount. repeat split; auto; try lia. now left. }
  pose proof (G h p v Wt A) as G1. pose proof (G h' p' w Wt' A') as G2. pose proof (Gt h p) as T1. pose proof (Gt h' p') as T2. rewrite CT in T2.
  unfold json_cell. rewrite CN, CT, !znth_of_nat, Ncn, Nct. cbn [rbind]. rewrite G1, G2. cbn [rbind].
  destruct SC as [v NT|q q' Nq Nq'|q q' Nq Rq].
  - assert (TX : GetValAsStringByColIndex h (tab h p) (Z.of_nat ci) (Z.of_nat ri) = GetValAsStringByColIndex h' (tab h' p') (Z.of_nat ci) (Z.of_nat ri)).
    { unfold GetValAsStringByColIndex. rewrite N, N', G1, G2, CT, znth_of_nat, Nct. cbn [rbind].
      replace (cell_text (fun s => s) encode h' ct (read_back v)) with (cell_text (fun s => s) encode h ct v); [reflexivity|].
      destruct v as [| | | | | |[l|]|o| |]; try reflexivity. now elim (NT o). }
    rewrite TX. generalize (GetValAsStringByColIndex h' (tab h' p') (Z.of_nat ci) (Z.of_nat ri)). intros tx X Y. clear - X Y NT.
    assert (Q : forall u u' : list ptr, forall f : string -> string, forall k k' : list ptr,
       (let! (s, seen) := (let! s := tx in Ok (f s, u)) in Ok (("{" ++ Quote ip cn ++ ":" ++ s ++ "}")%string, seen)) = Ok (s, k) ->
       (let! (s, seen) := (let! s := tx in Ok (f s, u')) in Ok (("{" ++ Quote ip cn ++ ":" ++ s ++ "}")%string, seen)) = Ok (s', k') -> s = s').
    { intros u u' f k k' P Q. destruct tx; cbn in P, Q; try discriminate P. congruence. }
    destruct v as [|b|str|k z|f|f|o|o|tm|g]; cbn [read_back] in Y; try (cbn [rbind] in X, Y; congruence); try discriminate X; try (exact (Q _ _ (fun s => s) _ _ X Y)).
    + destruct k; try (exact (Q _ _ (fun s => s) _ _ X Y)). destruct (ct =? "int32"); [exact (Q _ _ (fun s => s) _ _ X Y)|]. destruct (ct =? "rune"); [exact (Q _ _ (Quote ip) _ _ X Y)|]. destruct tx; discriminate X.
    + destruct o; exact (Q _ _ spaces_to_commas _ _ X Y).
    + now elim (NT o).
  - rewrite (T1 q Wt Nct A), (T2 q' Wt' Nct A'). cbn [rbind]. rewrite Nq, Nq'. destruct (in_set q seen), (in_set q' seen'); cbn [rbind]; try discriminate. congruence.
  - rewrite (T1 q Wt Nct A), (T2 q' Wt' Nct A'). cbn [rbind]. rewrite Nq, (NR _ _ Rq). destruct (in_set q seen), (in_set q' seen'); cbn [rbind]; try discriminate.
    destruct (write q seen) as [[a m]| |] eqn:E1; cbn [rbind]; try discriminate. destruct (write' q' seen') as [[a' m']| |] eqn:E2; cbn [rbind]; try discriminate.
    destruct (WR _ _ _ _ _ _ _ _ Nq Rq E1 E2) as [_ ->]. congruence.
Qed.

Lemma table_same : forall f f' p p' seen s sn seen' s' sn', is_nil (tab h p) = false -> deep_copy h h' p p' ->
  getTableAsJSON_recursive f ip h p seen = Ok (s, sn) -> getTableAsJSON_recursive f' ip h' p' seen' = Ok (s', sn') -> s = s'.
Proof.
  induction f as [|f IH]; intros f' p p' seen s sn seen' s' sn' N D E E'; [discriminate E|]. destruct f' as [|f']; [discriminate E'|].
  cbn [getTableAsJSON_recursive] in E, E'. inversion D as [x x' N' NM CN CT SH SK RS X X']; subst.
  rewrite NM, CN, CT, SH in E'. destruct (rmap _ _) as [meta| |]; cbn [rbind] in E, E'; try discriminate E.
  pose proof (Forall2_len _ _ _ RS) as LR. rewrite <- LR in E'.
  destruct (write_each _ _ (p :: seen)) as [[data d1]| |] eqn:D1; cbn [rbind] in E; try discriminate E.
  destruct (write_each _ _ (p' :: seen')) as [[data' d1']| |] eqn:D2; cbn [rbind] in E'; try discriminate E'.
  assert (data = data') as <-; [|congruence]. clear E E'.
  eapply each_same; [|exact D1|exact D2]. clear D1 D2. intros ri sn1 r1 sn2 sn3 r2 sn4 I1 R1 R2. cbn beta in R1, R2. apply In_zseq in I1. try rewrite CN in R2.
  destruct (write_each _ _ sn1) as [[c1 e1]| |] eqn:C1; cbn [rbind] in R1; try discriminate R1.
  destruct (write_each _ _ sn3) as [[c2 e2]| |] eqn:C2; cbn [rbind] in R2; try discriminate R2.
  assert (c1 = c2) as <-; [|congruence]. clear R1 R2.
  eapply each_same; [|exact C1|exact C2]. clear C1 C2. intros ci a1 b1 a2 a3 b2 a4 I2 X1 X2. apply In_zseq in I2.
  replace ri with (Z.of_nat (Z.to_nat ri)) in X1, X2 by lia. replace ci with (Z.of_nat (Z.to_nat ci)) in X1, X2 by lia.
  destruct (wf_at_cell (tab h p) (Z.to_nat ci) (Z.to_nat ri) (tab_wf' h p W)) as (ct & v & _ & _ & A & _); [lia|lia|].
  assert (exists w, at_cell (tab h' p') (Z.to_nat ci) (Z.to_nat ri) = Some w /\ same_cell h h' (deep_copy h h') v w) as (w & A' & SC).
  { unfold at_cell in *. destruct (nth_error (rows (tab h p)) (Z.to_nat ri)) as [row|] eqn:R; [|discriminate A].
    destruct (Forall2_nth _ _ _ _ _ RS R) as (row' & -> & FR). destruct (Forall2_nth _ _ _ _ _ FR A) as (w & -> & SC). eauto. }
  assert (NR : forall q q', deep_copy h h' q q' -> is_nil (tab h' q') = false) by (intros q q' Dq; inversion Dq; auto).
  eapply (cell_same _ _ p p' _ _ v w (deep_copy h h')); [exact N|exact N'|exact CN|exact CT|exact A|exact A'|exact SC| |exact NR|exact X1|exact X2].
  intros q q' y1 y2 y3 y4 y5 y6 Nq Dq Y1 Y2. split; [now apply NR with q|]. eapply IH; eauto.
Qed.
Lemma private_same p p' s s' : is_nil (tab h p) = false -> deep_copy h h' p p' ->
  getTableAsJSON_private ip h (Some p) = Ok s -> getTableAsJSON_private ip h' (Some p') = Ok s' -> s = s'.
Proof.
  intros N D E E'. unfold getTableAsJSON_private in *. destruct (getTableAsJSON_recursive _ _ h _ _) as [[a n]| |] eqn:E1; cbn [rbind] in E; try discriminate E.
  destruct (getTableAsJSON_recursive _ _ h' _ _) as [[a' n']| |] eqn:E2; cbn [rbind] in E'; try discriminate E'. rewrite (table_same _ _ _ _ _ _ _ _ _ _ N D E1 E2) in E. congruence.
Qed.
End Copies.
