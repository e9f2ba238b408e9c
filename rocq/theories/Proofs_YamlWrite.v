(** Proofs_YamlWrite.v -- what getTableAsMap builds, and when it ends. *)
From Coq Require Import ZArith NArith List String Ascii Bool SpecFloat Lia Relations.
From Verif Require Import Base Model_Names Model_Table Model_Sort Model_Heap Model_TableSet Model_Lex Model_Float Model_Time
  Model_Parser Model_Print Model_Json Model_Yaml Spec Spec_Heap Spec_Walk Spec_Text Spec_Json Spec_Yaml Proofs_Lib Proofs_Table Proofs_Cells Proofs_Struct Proofs_Api
  Proofs_Pres Proofs_Api2 Proofs_Copy Proofs_Heap Proofs_Walk Proofs_TableSet Proofs_JsonText Proofs_JsonWrite Proofs_JsonRead Proofs_JsonTree.
Import ListNotations.
Local Open Scope string_scope.
Local Open Scope list_scope.

Definition quoted_type (ct : string) : string := if (ct =? "*Table")%string then in_quotes ct else ct.
Definition table_map (t : table) (data : list any) : list (string * any) :=
  [("tableName", AVal (VString (tname t))); ("data", AList data)]
  ++ (if struct_shape t then [("isStructShape", AVal (VBool true))] else [])
  ++ [("metadata", AList (map (fun c => AMap [(fst c, AVal (VString (quoted_type (snd c))))]) (combine (cnames t) (ctypes t))))].
Definition cell_map (T : ptr -> res (list (string * any))) (v : value) : res any :=
  match v with
  | VTable (Some q) => let! m := T q in Ok (AMap m)
  | _ => Ok (AVal v)
  end.

Lemma rmap_zseq {A B} (f : Z -> res B) (g : A -> res B) (l : list A) :
  (forall i x, nth_error l i = Some x -> f (Z.of_nat i) = g x) -> rmap f (zseq (List.length l)) = rmap g l.
Proof.
  intros H. unfold zseq.
  assert (G : forall l pre, (forall i x, nth_error (pre ++ l) i = Some x -> f (Z.of_nat i) = g x) -> rmap f (map Z.of_nat (seq (List.length pre) (List.length l))) = rmap g l).
  { clear. induction l as [|x l IH]; intros pre H; [reflexivity|]. cbn [List.length seq map rmap].
    rewrite (H (List.length pre) x) by (rewrite nth_error_app2, Nat.sub_diag by auto; reflexivity).
    specialize (IH (pre ++ [x])). rewrite app_length, Nat.add_1_r in IH. rewrite IH; [reflexivity|]. intros i y N. apply H. now rewrite <- cons_app_mid in N. }
  exact (G l [] H).
Qed.
Lemma rmap_map {A B} (f : A -> B) l : rmap (fun x => Ok (f x)) l = Ok (map f l).
Proof. induction l as [|x l IH]; [reflexivity|]. cbn [rmap rbind map]. now rewrite IH. Qed.
Lemma rmap_ext {A B} (f g : A -> res B) l : (forall x, In x l -> f x = g x) -> rmap f l = rmap g l.
Proof. induction l as [|x l IH]; intros H; [reflexivity|]. cbn [rmap]. rewrite (H x (or_introl eq_refl)), IH; [reflexivity|]. intros y I. apply H. now right. Qed.
Lemma rmap_cases {A B} (f : A -> res B) (C : Prop) l : (forall x, In x l -> (exists y, f x = Ok y) \/ (f x = Panic /\ C)) ->
  (exists ys, rmap f l = Ok ys) \/ (rmap f l = Panic /\ C).
Proof.
  induction l as [|x l IH]; intros H; [left; eexists; reflexivity|]. cbn [rmap].
  destruct (H x (or_introl eq_refl)) as [(y & ->)|[-> c]]; [|right; auto]. cbn [rbind].
  destruct IH as [(ys & ->)|[-> c]]; [intros z I; apply H; now right|left; eexists; reflexivity|right; auto].
Qed.

Lemma cell_eq T p t ri ci v : wf_table t -> is_nil t = false -> at_cell t ci ri = Some v ->
  yaml_cell T p t (Z.of_nat ri) (Z.of_nat ci) = cell_map T v.
Proof.
  intros W NN A. destruct (at_cell_range _ _ _ _ W A) as [Hc Hr].
  destruct (nth_error (cnames t) ci) as [cn|] eqn:Ncn; [|apply nth_error_None in Ncn; lia].
  destruct (nth_error (ctypes t) ci) as [ct|] eqn:Nct; [|apply nth_error_None in Nct; rewrite (wf_types_len _ W) in Nct; lia].
  pose proof (at_cell_ok _ _ _ _ _ W A Nct) as [HT GV].
  assert (CI : GetCellInfoByColIndex p t (Z.of_nat ci) (Z.of_nat ri) = Ok (mkCI p cn ct (Z.of_nat ci) (Z.of_nat ri))).
  { unfold GetCellInfoByColIndex, ColName. rewrite !znth_of_nat, Nct, Ncn. unfold ColCount.
    replace ((Z.of_nat ci <? 0)%Z || (Z.of_nat ci >? Z.of_nat (List.length (cnames t)) - 1)%Z) with false; [reflexivity|].
    symmetry. apply orb_false_iff. split; [apply Z.ltb_ge; lia|]. rewrite Z.gtb_ltb. apply Z.ltb_ge. lia. }
  assert (IT : In ct all_types) by exact (Forall_nth_error _ _ _ _ (wf_types _ W) Nct).
  assert (GT : GetTByColIndex ct t (Z.of_nat ci) (Z.of_nat ri) = Ok v).
  { destruct (GetTByColIndex_eq ct t (Z.of_nat ci) (Z.of_nat ri) W IT) as [(_ & _ & _ & _ & _ & E & _)|[No _]].
    - rewrite E, get_at by auto. rewrite !Nat2Z.id, A. rewrite !(proj2 (Z.leb_le _ _)) by lia. reflexivity.
    - elim No. exists ct. rewrite Nat2Z.id. unfold ColCount, RowCount. repeat split; auto; try lia. now left. }
  unfold yaml_cell. rewrite CI. cbn [rbind ci_type]. destruct (String.eqb_spec ct "*Table") as [->|Nt].
  - unfold GetTableByColIndex. rewrite GT. cbn [rbind].
    destruct v as [| b|str|k z|f|f|o|[q|]|tm|g]; try contradiction; try discriminate; [destruct k; cbn [has_type] in HT; try discriminate; destruct HT; discriminate|destruct HT; discriminate|reflexivity].
  - rewrite (proj2 (str_in_In ct all_types) IT), GT. cbn [rbind].
    destruct v as [| b|str|k z|f|f|o|[q|]|tm|g]; try contradiction; try reflexivity; try (elim Nt; exact HT).
Qed.

Lemma meta_eq t : wf_table t -> rmap (yaml_column t) (zseq (List.length (cnames t)))
  = Ok (map (fun c => AMap [(fst c, AVal (VString (quoted_type (snd c))))]) (combine (cnames t) (ctypes t))).
Proof.
  intros W. replace (List.length (cnames t)) with (List.length (combine (cnames t) (ctypes t))) by (rewrite combine_length, (wf_types_len _ W); lia).
  rewrite <- rmap_map. apply rmap_zseq. intros i [cn ct] N. rewrite nth_error_combine in N.
  destruct (nth_error (cnames t) i) as [cn'|] eqn:N1; [|discriminate]. destruct (nth_error (ctypes t) i) as [ct'|] eqn:N2; [|discriminate].
  injection N as -> ->. unfold yaml_column. rewrite !znth_of_nat, N1, N2. reflexivity.
Qed.

Lemma map_eq fuel h p : wf_heap h -> getTableAsMap (S fuel) h p =
  let! data := rmap (fun row => let! cells := rmap (cell_map (getTableAsMap fuel h)) row in Ok (AList cells)) (rows (tab h p)) in
  Ok (table_map (tab h p) data).
Proof.
  intros WH. destruct (tab_wf h p WH) as [W _]. cbn [getTableAsMap]. set (t := tab h p) in *. rewrite meta_eq by exact W. cbn [rbind].
  assert (E : rmap (fun ri => let! cells := rmap (yaml_cell (getTableAsMap fuel h) p t ri) (zseq (List.length (cnames t))) in Ok (AList cells)) (zseq (List.length (rows t)))
    = rmap (fun row => let! cells := rmap (cell_map (getTableAsMap fuel h)) row in Ok (AList cells)) (rows t)); [|rewrite E; reflexivity].
  destruct (is_nil t) eqn:NN.
  { destruct (wf_name _ W) as [[X _]|(_ & _ & _ & X)]; [congruence|]. rewrite X. reflexivity. }
  apply rmap_zseq. intros ri row R. f_equal.
  rewrite <- (wf_row_len t W ri row R). apply rmap_zseq. intros ci v V. apply cell_eq; auto. unfold at_cell. now rewrite R.
Qed.

(** ---------- when it ends ---------- *)

Fixpoint chain (h : heap) (n : nat) (p : ptr) : Prop :=
  match n with O => True | S n => exists q, nests h p q /\ chain h n q end.

Lemma nests_cell h (p : ptr) r q : wf_heap h -> In r (rows (tab h p)) -> In (VTable (Some q)) r -> nests h p q.
Proof.
  intros WH R Q. assert (L : p < List.length h).
  { destruct (Nat.lt_ge_cases p (List.length h)) as [L|L]; [exact L|]. unfold tab in R. rewrite nth_overflow in R by exact L. contradiction. }
  exists (tab h p). split; [unfold tab; now apply nth_error_nth'|]. unfold nested_in. apply in_flat_map. exists r. split; [exact R|].
  apply in_flat_map. exists (VTable (Some q)). split; [exact Q|now left].
Qed.
Lemma nests_inv h (p q : ptr) : nests h p q -> exists r, In r (rows (tab h p)) /\ In (VTable (Some q)) r.
Proof.
  intros (t & N & I). unfold tab. rewrite (nth_error_nth _ _ _ N). unfold nested_in in I. apply in_flat_map in I as (r & R & I).
  apply in_flat_map in I as (v & V & I). exists r. split; [exact R|]. destruct v as [| | | | | | |[q'|]| |]; try contradiction. destruct I as [->|[]]. exact V.
Qed.

Lemma map_total h : wf_heap h -> forall fuel p, (exists m, getTableAsMap fuel h p = Ok m) \/ (getTableAsMap fuel h p = Panic /\ chain h fuel p).
Proof.
  intros WH. induction fuel as [|fuel IH]; intros p; [right; split; [reflexivity|exact I]|]. rewrite map_eq by exact WH.
  destruct (rmap_cases (fun row => let! cells := rmap (cell_map (getTableAsMap fuel h)) row in Ok (AList cells)) (chain h (S fuel) p) (rows (tab h p))) as [(ys & ->)|[-> C]].
  - intros row R. destruct (rmap_cases (cell_map (getTableAsMap fuel h)) (chain h (S fuel) p) row) as [(ys & ->)|[-> C]]; [|left; eexists; reflexivity|right; auto].
    intros v V. destruct v as [| | | | | | |[q|]| |]; try (left; eexists; reflexivity). cbn [cell_map].
    destruct (IH q) as [(m & ->)|[-> C]]; [left; eexists; reflexivity|right]. split; [reflexivity|]. exists q. split; [|exact C]. now apply (nests_cell h p row).
  - left. eexists. reflexivity.
  - right. auto.
Qed.

Lemma rmap_Ok {A B} (f : A -> res B) l ys x : rmap f l = Ok ys -> In x l -> exists y, f x = Ok y.
Proof.
  intros H I. apply rmap_inv in H. apply In_nth_error in I as (i & N). destruct (Forall2_nth _ _ _ _ _ H N) as (y & _ & E). eauto.
Qed.
Lemma chain_blocks h : wf_heap h -> forall fuel p m, chain h fuel p -> getTableAsMap fuel h p <> Ok m.
Proof.
  intros WH. induction fuel as [|fuel IH]; intros p m C H; [discriminate|]. destruct C as (q & N & C). rewrite map_eq in H by exact WH.
  destruct (rmap _ (rows (tab h p))) as [data| |] eqn:E; try discriminate. apply nests_inv in N as (r & R & Q).
  destruct (rmap_Ok _ _ _ _ E R) as (y & E1). cbv beta in E1. destruct (rmap (cell_map _) r) as [cells| |] eqn:E2; try discriminate.
  destruct (rmap_Ok _ _ _ _ E2 Q) as (z & E3). cbn [cell_map] in E3. destruct (getTableAsMap fuel h q) as [m'| |] eqn:E4; try discriminate. exact (IH _ _ C E4).
Qed.

Lemma map_mono h : wf_heap h -> forall fuel p m, getTableAsMap fuel h p = Ok m -> forall fuel', fuel <= fuel' -> getTableAsMap fuel' h p = Ok m.
Proof.
  intros WH. induction fuel as [|fuel IH]; intros p m H fuel' L; [discriminate|]. destruct fuel' as [|fuel']; [lia|].
  rewrite map_eq in * by exact WH. rewrite <- H. f_equal. symmetry.
  destruct (rmap _ (rows (tab h p))) as [data| |] eqn:E; try discriminate. rewrite <- E. apply rmap_ext. intros r R.
  destruct (rmap_Ok _ _ _ _ E R) as (y & E1). cbv beta in E1. destruct (rmap (cell_map _) r) as [cells| |] eqn:E2; try discriminate.
  rewrite <- E2. f_equal. apply rmap_ext. intros v V.
  destruct (rmap_Ok _ _ _ _ E2 V) as (z & E3). destruct v as [| | | | | | |[q|]| |]; try reflexivity. cbn [cell_map] in *.
  destruct (getTableAsMap fuel h q) as [m'| |] eqn:E4; try discriminate. rewrite (IH q m' E4 fuel') by lia. reflexivity.
Qed.

Lemma chain_le h n : forall p, chain h (S n) p -> chain h n p.
Proof. induction n as [|n IH]; intros p C; [exact I|]. destruct C as (q & N & C). exists q. split; [exact N|]. now apply IH. Qed.
Lemma chain_trans h n p q : clos_trans _ (nests h) p q -> chain h n q -> chain h (S n) p.
Proof.
  intros T. revert n. induction T as [p q N|p q r T1 IH1 T2 IH2]; intros n C; [exists q; auto|]. apply chain_le, IH1, IH2, C.
Qed.
Lemma circular_chain h p : circular h p -> forall n, chain h n p.
Proof.
  intros (q & R & T) n. assert (C : forall n, chain h n q) by (clear n; induction n as [|n IH]; [exact I|now apply (chain_trans h n q q)]).
  apply clos_rt_rt1n in R. induction R as [p|p x q N R IH]; [apply C|]. destruct n as [|n]; [exact I|]. apply chain_le. exists x. split; [exact N|].
  now apply IH.
Qed.

Fixpoint walk_path (h : heap) (p : ptr) (l : list ptr) : Prop :=
  match l with [] => True | q :: l => nests h p q /\ walk_path h q l end.
Lemma chain_path h n : forall p, chain h n p -> exists l, List.length l = n /\ walk_path h p l.
Proof.
  induction n as [|n IH]; intros p C; [exists []; split; [reflexivity|exact I]|]. destruct C as (q & N & C). destruct (IH q C) as (l & L & P).
  exists (q :: l). cbn. auto.
Qed.
Lemma path_reach h : forall l p q, walk_path h p l -> In q l -> clos_trans _ (nests h) p q.
Proof.
  induction l as [|x l IH]; intros p q P I; [contradiction|]. destruct P as [N P]. destruct I as [->|I]; [now apply t_step|].
  eapply t_trans; [apply t_step; exact N|now apply IH].
Qed.
Lemma dup_in_path h : forall l p, walk_path h p l -> ~ NoDup l -> circular h p.
Proof.
  induction l as [|x l IH]; intros p P D; [elim D; constructor|]. destruct P as [N P].
  destruct (in_dec Nat.eq_dec x l) as [I|I].
  - exists x. split; [now apply rt_step|]. now apply (path_reach h l x x).
  - destruct (IH x P) as (q & R & T); [intros ND; apply D; now constructor|]. exists q. split; [|exact T]. eapply rt_trans; [apply rt_step; exact N|exact R].
Qed.
Lemma chain_circular h p : wf_heap h -> chain h (S (List.length h)) p -> circular h p.
Proof.
  intros WH C. destruct (chain_path _ _ _ C) as (l & L & P). apply (dup_in_path h l p P). intros ND.
  assert (I : incl l (seq 0 (List.length h))).
  { intros q Q. clear - WH P Q. revert p P. induction l as [|x l IH]; intros p P; [contradiction|]. destruct P as [N P].
    destruct Q as [->|Q]; [|now apply (IH Q x)]. apply in_seq. pose proof (nests_valid h p q N WH). lia. }
  pose proof (NoDup_incl_length ND I) as X. rewrite seq_length in X. lia.
Qed.

(** A table is written unless it is nested in itself; then the recursion has no end. *)
Theorem map_iff h p : wf_heap h ->
  (~ circular h p -> exists m, forall fuel, S (List.length h) <= fuel -> getTableAsMap fuel h p = Ok m)
  /\ (circular h p -> forall fuel, getTableAsMap fuel h p = Panic).
Proof.
  intros WH. split.
  - intros NC. destruct (map_total h WH (S (List.length h)) p) as [(m & M)|[_ C]]; [|elim NC; now apply chain_circular].
    exists m. now apply map_mono.
  - intros C fuel. destruct (map_total h WH fuel p) as [(m & M)|[M _]]; [|exact M]. exfalso. now apply (chain_blocks h WH fuel p m (circular_chain h p C fuel)).
Qed.
