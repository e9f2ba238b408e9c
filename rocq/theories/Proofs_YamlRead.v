(** Proofs_YamlRead.v -- reading a table set from the document that was written. *)
From Coq Require Import ZArith NArith List String Ascii Bool SpecFloat Lia Relations.
From Verif Require Import Base Model_Names Model_Table Model_Sort Model_Heap Model_TableSet Model_Lex Model_Float Model_Time
  Model_Parser Model_Print Model_Json Model_Yaml Spec Spec_Heap Spec_Walk Spec_Text Spec_Json Spec_Yaml Proofs_Lib Proofs_Table Proofs_Cells Proofs_Struct Proofs_Api
  Proofs_Pres Proofs_Api2 Proofs_Copy Proofs_Heap Proofs_Walk Proofs_TableSet Proofs_Lex Proofs_Float Proofs_JsonText Proofs_JsonWrite Proofs_JsonRead Proofs_JsonTree Proofs_YamlWrite.
Import ListNotations.
Local Open Scope string_scope.
Local Open Scope list_scope.

(** ---------- the document, read back ---------- *)

Definition cell_yaml (T : ptr -> list (string * ydoc) -> Prop) (v : value) (y : ydoc) : Prop :=
  match v with
  | VTable (Some q) => exists m, y = YMap m /\ T q m
  | _ => scalar_back v y
  end.
Definition members_yaml (t : table) (data : list ydoc) : list (string * ydoc) :=
  [("tableName", YStr (tname t)); ("data", YList data)]
  ++ (if struct_shape t then [("isStructShape", YBool true)] else [])
  ++ [("metadata", YList (map (fun c => YMap [(fst c, YStr (quoted_type (snd c)))]) (combine (cnames t) (ctypes t))))].
Fixpoint table_yaml (k : nat) (h : heap) (p : ptr) (m : list (string * ydoc)) : Prop :=
  match k with
  | O => False
  | S k' => exists data, m = members_yaml (tab h p) (map YList data) /\
      Forall2 (Forall2 (cell_yaml (table_yaml k' h))) (rows (tab h p)) data
  end.

Lemma string_back s y : comes_back (AVal (VString s)) y -> y = YStr s.
Proof. intros H. inversion H as [? ? S| |]; subst. now inversion S. Qed.
Lemma bool_back b y : comes_back (AVal (VBool b)) y -> y = YBool b.
Proof. intros H. inversion H as [? ? S| |]; subst. now inversion S. Qed.
Lemma list_back l y : comes_back (AList l) y -> exists l', y = YList l' /\ Forall2 comes_back l l'.
Proof. intros H. inversion H; subst. eauto. Qed.
Lemma map_back m y : comes_back (AMap m) y -> exists m', y = YMap m' /\ Forall2 (fun a b => fst a = fst b /\ comes_back (snd a) (snd b)) m m'.
Proof. intros H. inversion H; subst. eauto. Qed.

Lemma meta_back (l : list (string * string)) : forall l', Forall2 comes_back (map (fun c => AMap [(fst c, AVal (VString (quoted_type (snd c))))]) l) l' ->
  l' = map (fun c => YMap [(fst c, YStr (quoted_type (snd c)))]) l.
Proof.
  induction l as [|[cn ct] l IH]; intros l' H; cbn [map] in H; inversion H as [|? y ? l2 C F]; subst; [reflexivity|].
  apply map_back in C as (m' & -> & F2). inversion F2 as [|? [k z] ? r [K V] F3]; subst. inversion F3; subst. cbn [fst snd] in *. subst k.
  apply string_back in V. subst z. cbn [map fst snd]. f_equal. now apply IH.
Qed.
Lemma members_back t data m' : Forall2 (fun a b => fst a = fst b /\ comes_back (snd a) (snd b)) (table_map t data) m' ->
  exists data', m' = members_yaml t data' /\ Forall2 comes_back data data'.
Proof.
  unfold table_map, members_yaml. intros H. cbn [app] in H.
  inversion H as [|? [k1 y1] ? r1 [K1 V1] H1]; subst. inversion H1 as [|? [k2 y2] ? r2 [K2 V2] H2]; subst. cbn [fst snd] in *. subst k1 k2.
  apply string_back in V1. apply list_back in V2 as (data' & -> & FD). subst y1. exists data'. split; [|exact FD]. cbn [app]. do 2 f_equal.
  assert (M : forall r, Forall2 (fun a b => fst a = fst b /\ comes_back (snd a) (snd b))
     [("metadata", AList (map (fun c => AMap [(fst c, AVal (VString (quoted_type (snd c))))]) (combine (cnames t) (ctypes t))))] r ->
     r = [("metadata", YList (map (fun c => YMap [(fst c, YStr (quoted_type (snd c)))]) (combine (cnames t) (ctypes t))))]).
  { intros r F. inversion F as [|? [k y] ? r' [K V] F']; subst. inversion F'; subst. cbn [fst snd] in *. subst k.
    apply list_back in V as (l' & -> & FL). now rewrite (meta_back _ _ FL). }
  destruct (struct_shape t); cbn [app] in *; [|now apply M].
  inversion H2 as [|? [k3 y3] ? r3 [K3 V3] H3]; subst. cbn [fst snd] in *. subst k3. apply bool_back in V3. subst y3. f_equal. now apply M.
Qed.

Lemma written_back h : wf_heap h -> forall fuel p m m', getTableAsMap fuel h p = Ok m -> comes_back (AMap m) (YMap m') -> table_yaml fuel h p m'.
Proof.
  intros WH. induction fuel as [|fuel IH]; intros p m m' H C; [discriminate|]. rewrite map_eq in H by exact WH.
  destruct (rmap _ _) as [data| |] eqn:E; try discriminate. cbn [rbind] in H.
  assert (m = table_map (tab h p) data) as -> by congruence. clear H.
  apply map_back in C as (m2 & X & F). injection X as ->. apply members_back in F as (data' & -> & FD).
  apply rmap_inv in E.
  assert (G : exists data2, data' = map YList data2 /\ Forall2 (Forall2 (cell_yaml (table_yaml fuel h))) (rows (tab h p)) data2).
  { clear - E FD IH. revert data' FD. induction E as [|row a rs data R E IHE]; intros data' FD; inversion FD as [|? y ? d2 C FD']; subst; [exists []; split; [reflexivity|constructor]|].
    destruct (IHE _ FD') as (d3 & -> & F3). destruct (rmap _ row) as [cells| |] eqn:RC; try discriminate. cbn [rbind] in R. injection R as <-.
    apply list_back in C as (ys & -> & FY). exists (ys :: d3). split; [reflexivity|]. constructor; [|exact F3].
    apply rmap_inv in RC. clear - RC FY IH. revert ys FY. induction RC as [|v a vs cells R RC IHR]; intros ys FY; inversion FY as [|? y ? d2 C FY']; subst; constructor; auto.
    unfold cell_yaml. destruct v as [| b|str|k z|f|f|o|[q|]|tm|g]; cbn [cell_map] in R; try (injection R as <-; now inversion C).
    destruct (getTableAsMap fuel h q) as [m| |] eqn:GM; try discriminate. cbn [rbind] in R. injection R as <-.
    apply map_back in C as (m' & -> & FM). exists m'. split; [reflexivity|]. apply (IH q m m' GM). now constructor. }
  destruct G as (data2 & -> & G). exists data2. auto.
Qed.

(** ---------- the domain ---------- *)

Lemma domain_list (text : string -> Prop) n l : fold_right (fun x P => in_domain text n x /\ P) True l <-> Forall (in_domain text n) l.
Proof.
  induction l as [|x l IH]; cbn [fold_right]; [split; auto|]. rewrite IH. split; [intros [A B]; now constructor|intros F; inversion F; auto].
Qed.
Lemma domain_AList (text : string -> Prop) n l : in_domain text (S n) (AList l) <-> Forall (in_domain text n) l.
Proof. apply domain_list. Qed.
Lemma domain_AMap (text : string -> Prop) n m : in_domain text (S n) (AMap m) <-> Forall (fun x => text (fst x) /\ in_domain text n (snd x)) m.
Proof.
  cbn [in_domain]. induction m as [|x l IH]; cbn [fold_right]; [split; auto|]. rewrite IH. split; [intros [A B]; now constructor|intros F; inversion F; auto].
Qed.
Lemma domain_val (text : string -> Prop) n n' v : n <= n' -> in_domain text n (AVal v) -> in_domain text n' (AVal v).
Proof. intros L. destruct n, n', v; cbn; auto; lia. Qed.
Lemma domain_le (text : string -> Prop) : forall n n' a, n <= n' -> in_domain text n a -> in_domain text n' a.
Proof.
  induction n as [|n IH]; intros n' a L H.
  - destruct a; [now apply (domain_val text 0)|contradiction|contradiction].
  - destruct a as [v|l|m]; [now apply (domain_val text (S n))| |]; (destruct n' as [|n']; [lia|]).
    + cbn [in_domain] in *. rewrite domain_list in *. eapply Forall_impl; [|exact H]. intros a. apply IH. lia.
    + cbn [in_domain] in *. induction m as [|x m IHm]; cbn [fold_right] in *; [exact I|]. destruct H as [[A B] C]. split; [split; [exact A|]|now apply IHm].
      apply (IH n'); [lia|exact B].
Qed.

(** ---------- floats ---------- *)

Lemma short_dec f : (exists z, short_integer f z) \/ forall z, ~ short_integer f z.
Proof.
  unfold short_integer. destruct f as [neg|neg| |neg m e].
  - left. exists 0%Z. split; [lia|reflexivity].
  - right. intros z [_ []].
  - right. intros z [_ []].
  - rewrite ratio_eq. pose proof (e_down_pos e) as D. set (n := (Zpos m * e_up e)%Z). set (d := e_down e) in *.
    set (x := (if neg then - n else n)%Z). set (z := (x / d)%Z).
    destruct (Z.eq_dec (z * d) x) as [E|E]; [destruct (Z.lt_ge_cases (Z.abs z) 1000000) as [L|L]|].
    + left. exists z. auto.
    + right. intros z' [L' E']. assert (z' = z) by nia. subst. lia.
    + right. intros z' [L' E']. apply E. unfold z. rewrite <- E'. rewrite Z.div_mul by lia. reflexivity.
Qed.

Lemma float32_of_short f z : valid_binary 24 128 f = true -> f <> S754_zero true -> short_integer f z -> float32_of_int z = f.
Proof.
  intros V NZ [_ S]. unfold float32_of_int. destruct f as [neg|neg| |neg m e]; try contradiction.
  - subst z. destruct neg; [congruence|]. reflexivity.
  - rewrite ratio_eq in S. pose proof (e_down_pos e) as D. pose proof (e_up_pos e) as U.
    assert (C : canon F32 (Zpos m) e) by (apply (canon_valid F32 neg m e); [now left|exact V]).
    assert (A : (Z.abs z * e_down e = Zpos m * e_up e)%Z) by (destruct neg; nia).
    assert (Pz : (0 < Z.abs z)%Z) by nia.
    assert (Sg : (z <? 0)%Z = neg) by (destruct neg; [apply Z.ltb_lt|apply Z.ltb_ge]; nia).
    rewrite Sg, (nearest_exact F32 neg (Z.abs z) 1 (Zpos m) e); [reflexivity|now left|lia|lia|exact C|].
    unfold e_down, e_up in A. lia.
Qed.

Lemma into_range_id k z : in_range k z = true -> into_range k z = z.
Proof.
  unfold in_range, into_range. intros H. apply andb_true_iff in H as [A B]. apply Z.leb_le in A. apply Z.leb_le in B.
  rewrite Z.mod_small; [lia|]. assert (E : (imax k = imin k + 2 ^ ibits k - 1)%Z) by (destruct k; reflexivity). lia.
Qed.

Section Domain.
Variables (text : string -> Prop) (h : heap).
Hypothesis PR : forall s, printable s -> text s.
Hypothesis WH : wf_heap h.

Lemma text_type ct : In ct all_types -> text (quoted_type ct).
Proof.
  intros I. apply PR. unfold quoted_type. types I; unfold printable; repeat constructor; cbn; lia.
Qed.

Lemma domain_map t data n : wf_table t -> text (tname t) -> Forall text (cnames t) -> 1 <= n -> Forall (in_domain text n) data ->
  in_domain text (S (S n)) (AMap (table_map t data)).
Proof.
  intros W TN TC L FD.
  assert (K : forall k, In k ["tableName"; "data"; "isStructShape"; "metadata"] -> text k).
  { intros k I. apply PR. cbn [In] in I. unfold printable. repeat (destruct I as [<-|I]; [repeat constructor; cbn; lia|]). contradiction. }
  apply domain_AMap. unfold table_map. destruct n as [|n]; [lia|].
  assert (M : in_domain text (S (S n)) (AList (map (fun c => AMap [(fst c, AVal (VString (quoted_type (snd c))))]) (combine (cnames t) (ctypes t))))).
  { apply domain_AList. apply Forall_forall. intros a I. apply in_map_iff in I as ([cn ct] & <- & I). apply domain_AMap. constructor; [|constructor]. cbn [fst snd].
    pose proof (in_combine_l _ _ _ _ I) as I1. pose proof (in_combine_r _ _ _ _ I) as I2. rewrite Forall_forall in TC.
    split; [now apply TC|]. apply (domain_le text 0); [lia|]. apply text_type. pose proof (wf_types _ W) as FT. rewrite Forall_forall in FT. now apply FT. }
  assert (D : in_domain text (S (S n)) (AList data)) by now apply domain_AList.
  constructor; [split; [apply K; cbn; auto|exact TN]|]. constructor; [split; [apply K; cbn; auto|exact D]|].
  apply Forall_app. split; [|constructor; [split; [apply K; cbn; auto 10|exact M]|constructor]].
  destruct (struct_shape t); constructor; [|constructor]. split; [apply K; cbn; auto|exact I].
Qed.

Lemma domain_val_ok ct v n : cell_ok ct v -> (forall o, v <> VTable o) -> yaml_value_ok text v -> 1 <= n -> in_domain text n (AVal v).
Proof.
  intros [HT GV] NT OK L. destruct n as [|n]; [lia|]. destruct v as [| b|str|k z|f|f|o|o|tm|g]; cbn in *; auto; try contradiction; try lia.
  - destruct OK as [_ RB]. intros FI. destruct (short_dec f) as [S|S]; [now left|]. right. destruct (RB FI S) as (g & P & _). eauto.
  - elim (NT o). reflexivity.
Qed.

Lemma written_domain : forall fuel k p m, (is_nil (tab h p) = false -> depth_at_most k h p /\ yaml_table text h p) -> p < List.length h ->
  getTableAsMap fuel h p = Ok m -> in_domain text (3 * k + 2) (AMap m).
Proof.
  induction fuel as [|fuel IH]; intros k p m D L H; [discriminate|]. rewrite map_eq in H by exact WH.
  destruct (rmap _ _) as [data| |] eqn:E; try discriminate. cbn [rbind] in H.
  assert (m = table_map (tab h p) data) as -> by congruence. clear H.
  destruct (tab_wf h p WH) as [W _]. destruct (is_nil (tab h p)) eqn:N.
  - destruct (wf_name _ W) as [[C _]|(_ & N1 & N2 & N3)]; [congruence|].
    rewrite N3 in E. cbn [rmap] in E. injection E as <-. unfold table_map. rewrite N1, N2.
    assert (K : forall k, In k [""; "tableName"; "data"; "isStructShape"; "metadata"] -> text k).
    { intros x I. apply PR. cbn [In] in I. unfold printable. repeat (destruct I as [<-|I]; [repeat constructor; cbn; lia|]). contradiction. }
    apply domain_le with (n := 2); [lia|]. cbn [combine map]. apply domain_AMap.
    repeat first [apply Forall_app; split|constructor]; cbn [fst snd]; try (apply K; cbn; auto 10); try apply Forall_nil; try exact I.
    destruct (struct_shape (tab h p)); constructor; [|constructor]. split; [apply K; cbn; auto|exact I].
  - destruct (D eq_refl) as [DK YT]. destruct k as [|k]; [contradiction|]. destruct (YT p (rt_refl _ _ p) N) as (T1 & T2 & T3).
    replace (3 * S k + 2) with (S (S (3 * k + 3))) by lia. apply domain_map; auto; [lia|].
    apply rmap_inv in E. pose proof (wf_cells _ W) as WR. apply Forall_forall. intros a I. apply In_nth_error in I as (ri & NI).
    destruct (Forall2_nth_r _ _ _ _ _ E NI) as (row & NR & R). destruct (rmap _ row) as [cells| |] eqn:RC; try discriminate. cbn [rbind] in R. injection R as <-.
    replace (3 * k + 3) with (S (3 * k + 2)) by lia. apply domain_AList.
    apply rmap_inv in RC. apply Forall_forall. intros a I. apply In_nth_error in I as (ci & NC). destruct (Forall2_nth_r _ _ _ _ _ RC NC) as (v & NV & R).
    assert (VO : yaml_value_ok text v) by (eapply (Forall_nth_error _ _ _ _ (Forall_nth_error _ _ _ _ T3 NR)); exact NV).
    pose proof (Forall_nth_error _ _ _ _ WR NR) as WR1. destruct (Forall2_nth_r _ _ _ _ _ WR1 NV) as (ct & NT & CO).
    destruct v as [| b|str|ik z|f|f|o|[q|]|tm|g]; cbn [cell_map] in R; try (injection R as <-; eapply domain_val_ok; eauto; [discriminate|lia]).
    + destruct (getTableAsMap fuel h q) as [m| |] eqn:G; try discriminate. cbn [rbind] in R. injection R as <-.
      assert (NE : nests h p q).
      { exists (tab h p). split; [unfold tab; now apply nth_error_nth'|]. unfold nested_in. apply in_flat_map. exists row. split; [now apply nth_error_In in NR|].
        apply in_flat_map. exists (VTable (Some q)). split; [now apply nth_error_In in NV|now left]. }
      apply (IH k q m); [|now apply (nests_valid _ _ _ NE)|exact G].
      intros Nq. split; [now apply DK|]. intros q' Hq Nq'. apply (YT q'); auto. eapply rt_trans; [apply rt_step; exact NE|exact Hq].
    + destruct CO as [C _]. contradiction.
Qed.
End Domain.

(** ---------- depth of documents ---------- *)

Lemma depth_list y l : In y l -> ydepth y < ydepth (YList l).
Proof.
  intros I. cbn [ydepth]. apply Nat.lt_succ_r. induction l as [|x l IH]; [contradiction|]. cbn [fold_right]. destruct I as [->|I]; [apply Nat.le_max_l|].
  etransitivity; [now apply IH|apply Nat.le_max_r].
Qed.
Lemma depth_map k y m : In (k, y) m -> ydepth y < ydepth (YMap m).
Proof.
  intros I. cbn [ydepth]. apply Nat.lt_succ_r. induction m as [|x l IH]; [contradiction|]. cbn [fold_right]. destruct I as [->|I]; [apply Nat.le_max_l|].
  etransitivity; [now apply IH|apply Nat.le_max_r].
Qed.

Lemma trim_type ct : In ct all_types -> trimQuote (quoted_type ct) = ct.
Proof. intros I. types I; reflexivity. Qed.

Section Src.
Variables (src : heap) (text : string -> Prop).

Lemma add_ycolumns h0 s cns : forall cts t cns0 cts0, wf_heap (h0 ++ [t]) -> built s cns0 cts0 [] t -> List.length cns = List.length cts ->
  NoDup (cns0 ++ cns) -> Forall valid_name cns -> Forall (fun ct => In ct all_types) cts ->
  exists t', hfor (map (fun c => YMap [(fst c, YStr (quoted_type (snd c)))]) (combine cns cts)) (add_yaml_column (List.length h0)) (h0 ++ [t]) = (h0 ++ [t'], Ok tt)
    /\ wf_heap (h0 ++ [t']) /\ built s (cns0 ++ cns) (cts0 ++ cts) [] t'.
Proof.
  induction cns as [|cn cns IH]; intros [|ct cts] t cns0 cts0 WH B L D V T; try discriminate.
  - exists t. cbn. rewrite !app_nil_r. auto.
  - destruct B as (B1 & B2 & B3 & B4 & B5 & B6 & B7).
    assert (W : wf_table t). { pose proof (wh_tables _ WH) as F. apply Forall_app in F as [_ F]. now inversion F. }
    apply NoDup_remove in D as D'. destruct D' as [_ D'].
    assert (C : can_append_col t cn ct = true).
    { unfold can_append_col. rewrite B7, (proj2 (IsValidColName_spec cn) (Forall_inv V)), (proj2 (IsValidColType_spec ct) (Forall_inv T)). cbn [negb andb].
      destruct (mget (cmap t) cn) as [i|] eqn:G; [|reflexivity]. apply (wf_map _ W) in G. exfalso. apply D'. rewrite in_app_iff. left.
      rewrite <- B2. now apply nth_error_In in G. }
    set (t1 := s_tab (col_added cn ct (mkS t (List.length (h0 ++ [t])) []))).
    assert (E0 : add_yaml_column (List.length h0) (YMap [(cn, YStr (quoted_type ct))]) (h0 ++ [t]) = on_heap (List.length h0) (AppendCol cn ct) (h0 ++ [t])).
    { unfold add_yaml_column. cbn [last]. now rewrite trim_type by exact (Forall_inv T). }
    assert (E : add_yaml_column (List.length h0) (YMap [(cn, YStr (quoted_type ct))]) (h0 ++ [t]) = (h0 ++ [t1], Ok tt)).
    { rewrite E0. unfold on_heap. rewrite nth_error_app2, Nat.sub_diag by auto. cbn [nth_error].
      rewrite AppendCol_eq by exact W. cbn [s_tab]. rewrite C. fold t1.
      replace (s_news (col_added cn ct (mkS t (List.length (h0 ++ [t])) []))) with (@nil bool)
        by (unfold col_added; cbn [s_news s_tab]; rewrite B4; destruct (is_tab ct); reflexivity).
      unfold new_nils. cbn [map]. rewrite app_nil_r. f_equal. apply upd_app_mid. }
    assert (WH1 : wf_heap (h0 ++ [t1])).
    { pose proof (on_heap_wf (List.length h0) (AppendCol cn ct) _ WH (pres_AppendCol _ cn ct)) as [X _]. rewrite <- E0, E in X. exact X. }
    destruct (IH cts t1 (cns0 ++ [cn]) (cts0 ++ [ct]) WH1) as (t' & E' & W' & B').
    + unfold t1, col_added. cbn [s_tab]. repeat split; cbn [tname cnames ctypes rows struct_shape skeys is_nil]; auto; rewrite ?B2, ?B3, ?B4; reflexivity.
    + now injection L.
    + now rewrite <- app_assoc.
    + now apply Forall_inv_tail in V.
    + now apply Forall_inv_tail in T.
    + exists t'. rewrite <- !app_assoc in B'. split; [|auto]. cbn [combine map hfor fst snd]. unfold hbind. rewrite E. exact E'.
Qed.

(** What reading a nested table does *)
Definition table_yread (k d : nat) (T : list (string * ydoc) -> HM ptr) : Prop :=
  forall q m h, table_yaml k src q m -> ydepth (YMap m) <= d -> q < List.length src -> (is_nil (tab src q) = false -> yaml_table text src q) -> wf_heap h ->
  exists h', T m h = (h', Ok (List.length h)) /\ wf_heap h' /\ List.length h < List.length h' /\
    (forall a, a < List.length h -> nth_error h' a = nth_error h a) /\
    (if is_nil (tab src q) then is_nil (tab h' (List.length h)) = true else copied src k (List.length h) h' q (List.length h)).

Lemma rmap_bytes (l : list ascii) : rmap (fun y => match y with YInt z => Ok (chr (into_range KUint8 z)) | _ => Panic end) (map (fun c => YInt (code c)) l) = Ok l.
Proof.
  induction l as [|c l IH]; [reflexivity|]. cbn [map rmap]. rewrite into_range_id, chr_code, IH; [reflexivity|].
  pose proof (code_range c). unfold in_range. apply andb_true_iff. split; apply Z.leb_le; cbn; lia.
Qed.

Lemma read_ycell k d T h0 s done r h i ct v y : table_yread k d T -> building h0 s (done ++ [r]) h ->
  i < List.length (cnames s) -> nth_error (ctypes s) i = Some ct -> cell_ok ct v -> yaml_value_ok text v -> cell_yaml (table_yaml k src) v y -> ydepth y <= d ->
  (forall q, v = VTable (Some q) -> q < List.length src /\ (is_nil (tab src q) = false -> yaml_table text src q)) ->
  exists h' w, set_yaml T (List.length h0) (Z.of_nat i) (Z.of_nat (List.length done)) y h = (h', Ok tt) /\
    building h0 s (done ++ [upd r i w]) h' /\ agree (S (List.length h0)) h h' /\ cell_copied src (copied src k (S (List.length h0)) h') (S (List.length h0)) h' v w.
Proof.
  intros TR B Hi Tc [HT GV] JV CY DY Nest. set (p1 := List.length h0) in *.
  assert (ZT : znth (ctypes (tab h p1)) (Z.of_nat i) = Some ct).
  { rewrite znth_of_nat. destruct (bu_tab _ _ _ _ B) as (_ & _ & X & _). fold p1 in X. now rewrite X. }
  assert (Set1 : forall vt w, In vt all_types -> arg_of_type vt w = true -> not_nil_arg w = true -> has_type ct w -> go_value w = true -> (forall o, v <> VTable o) -> w = read_back v ->
     exists h' w', on_heap p1 (SetTByColIndex vt (Z.of_nat i) (Z.of_nat (List.length done)) w) h = (h', Ok tt) /\
       building h0 s (done ++ [upd r i w']) h' /\ agree (S p1) h h' /\ cell_copied src (copied src k (S p1) h') (S p1) h' v w').
  { intros vt w IV AT NA HTw GVw NT ->. destruct (set_last h0 s done r h i ct vt (read_back v) B Hi Tc IV AT NA HTw GVw) as (h' & E & B' & L' & A').
    - destruct v as [| | | | | |[|]|o| |]; cbn; auto. exfalso. eapply NT; reflexivity.
    - exists h', (read_back v). split; [exact E|]. split; [exact B'|]. split; [now apply set_last_agree|].
      destruct v as [| | | | | | |o| |]; cbn [cell_copied]; auto. exfalso. eapply NT; reflexivity. }
  destruct v as [| b|str|ik z|f|f|o|[q|]|tm|g]; try contradiction; cbn [cell_yaml] in CY; [inversion CY; subst ..| |inversion CY; subst].
  - cbn [has_type] in HT. subst ct. apply (Set1 "bool" (VBool b)); try reflexivity; [now apply str_in_In|discriminate].
  - cbn [has_type] in HT. subst ct. apply (Set1 "string" (VString str)); try reflexivity; [now apply str_in_In|discriminate].
  - unfold set_yaml, hbind. rewrite ZT. cbn [go_value] in GV.
    assert (IK : (if ct =? "rune" then Some KInt32 else int_kind ct)%string = Some ik /\ In ct all_types /\ arg_of_type ct (VInt ik z) = true).
    { destruct ik; cbn [has_type] in HT; try (destruct HT as [HT|HT]); subst ct; repeat split; try reflexivity; now apply str_in_In. }
    destruct IK as (-> & IC & AC). rewrite into_range_id by exact GV. apply (Set1 ct (VInt ik z)); auto; discriminate.
  - unfold set_yaml, hbind. rewrite ZT. cbn [go_value] in GV. unfold in_range in GV. apply andb_true_iff in GV as [G1 G2]. apply Z.leb_le in G2.
    assert (U : ik = KUint \/ ik = KUint64).
    { destruct (Z.lt_ge_cases (imax ik) (2 ^ 63)) as [L|L]; [lia|]. destruct ik; auto; exfalso; apply L; reflexivity. }
    destruct U as [-> | ->]; cbn [has_type] in HT; subst ct; [apply (Set1 "uint" (VInt KUint z))|apply (Set1 "uint64" (VInt KUint64 z))]; try reflexivity; try (now apply str_in_In); try discriminate;
     cbn [go_value]; unfold in_range; apply andb_true_iff; (split; [exact G1|apply Z.leb_le; exact G2]).
  - unfold set_yaml, hbind. rewrite ZT. cbn [has_type] in HT. subst ct. cbn [yaml_value_ok] in JV. destruct JV as [NZ _].
    change (if "float32" =? "rune" then Some KInt32 else int_kind "float32")%string with (@None ikind). cbn match.
    change ("float32" =? "float32")%string with true. cbn match. rewrite (float32_of_short f z); auto.
    apply (Set1 "float32" (VFloat32 f)); try reflexivity; [now apply str_in_In|exact GV|discriminate].
  - unfold set_yaml, hbind. rewrite ZT. cbn [has_type] in HT. subst ct. destruct JV as [NZ RB].
    change ("float32" =? "float32")%string with true. cbn match. destruct RB as (g' & P & Eg); auto.
    assert (g' = g) by congruence. subst g'. rewrite Eg.
    apply (Set1 "float32" (VFloat32 f)); try reflexivity; [now apply str_in_In|exact GV|discriminate].
  - unfold set_yaml, hbind. rewrite ZT. cbn [has_type] in HT. subst ct.
    change ("float32" =? "float32")%string with true. cbn match. replace (float32_of f) with f by (destruct f; try reflexivity; exfalso; match goal with H : ~ finite _ |- _ => now apply H end).
    apply (Set1 "float32" (VFloat32 f)); try reflexivity; [now apply str_in_In|exact GV|discriminate].
  - exfalso. cbn [yaml_value_ok] in JV. eapply JV; eauto.
  - unfold set_yaml, hbind. rewrite ZT. cbn [has_type] in HT. subst ct.
    change ("float64" =? "float32")%string with false. change ("float64" =? "float64")%string with true. cbn match.
    apply (Set1 "float64" (VFloat64 f)); try reflexivity; [now apply str_in_In|exact GV|discriminate].
  - unfold set_yaml, hbind. rewrite ZT. set (l := match o with Some l => l | None => [] end).
    assert (RB : VBytes (Some l) = read_back (VBytes o)) by (unfold l; destruct o; reflexivity).
    cbn [has_type] in HT.
    replace (str_in ct asserted) with false by (destruct HT; subst ct; reflexivity).
    replace ((ct =? "[]byte")%string || (ct =? "[]uint8")%string) with true by (destruct HT; subst ct; reflexivity).
    unfold hlift. rewrite rmap_bytes.
    apply (Set1 ct (VBytes (Some l))); try reflexivity; auto; try discriminate; destruct HT; subst ct; try reflexivity; now apply str_in_In.
  - cbn [has_type] in HT. subst ct. destruct (Nest q eq_refl) as [Hq Jq]. destruct CY as (m & -> & Tm).
    unfold set_yaml, hbind. rewrite ZT. change ("*Table" =? "*Table")%string with true. cbn match.
    destruct (TR q m h Tm DY Hq Jq (bu_wf _ _ _ _ B)) as (h1 & E1 & WH1 & L1 & O1 & C1). rewrite E1.
    assert (B1 : building h0 s (done ++ [r]) h1).
    { destruct B as [WH L O B']. constructor; auto; [lia| |].
      - intros a Ha. rewrite O1 by lia. now apply O.
      - replace (tab h1 (List.length h0)) with (tab h (List.length h0)); [exact B'|]. unfold tab. specialize (O1 (List.length h0) L).
        destruct (nth_error h (List.length h0)) eqn:X; [|apply nth_error_None in X; lia]. now rewrite (nth_error_nth _ _ _ X), (nth_error_nth _ _ _ O1). }
    pose proof (bu_len _ _ _ _ B) as LB.
    destruct (nest_last h0 s done r h1 (List.length h) i B1 Hi Tc) as (h' & E & B2 & A2); [lia|].
    exists h', (VTable (Some (List.length h))). fold p1 in E, A2, LB. split; [exact E|]. split; [exact B2|].
    assert (A1 : agree (S p1) h h1) by (apply agree_same; [lia|exact O1]).
    split; [eapply agree_trans; eauto|]. cbn [cell_copied]. exists (List.length h). split; [reflexivity|]. split; [destruct A2; lia|].
    destruct (is_nil (tab src q)).
    + destruct A2 as [L2 A2]. destruct (A2 (List.length h)) as (_ & _ & _ & _ & _ & _ & N7); [lia|]. congruence.
    + eapply copied_mono; [| |exact C1]; [lia|]. eapply agree_le; [|exact A2]. lia.
  - cbn [has_type] in HT. subst ct. apply (Set1 "time.Time" (VTime tm)); try reflexivity; [now apply str_in_In|exact GV|discriminate].
Qed.

Lemma read_ycells k d T h0 s done : table_yread k d T ->
  forall vs ys, Forall2 (cell_yaml (table_yaml k src)) vs ys -> forall pns ns pcts cts pre post h,
  cnames s = pns ++ ns -> ctypes s = pcts ++ cts -> List.length ns = List.length vs -> List.length pns = List.length pre -> List.length pcts = List.length pre -> List.length post = List.length vs ->
  building h0 s (done ++ [pre ++ post]) h -> Forall2 cell_ok cts vs -> Forall (yaml_value_ok text) vs -> Forall (fun y => ydepth y <= d) ys ->
  (forall q, In (VTable (Some q)) vs -> q < List.length src /\ (is_nil (tab src q) = false -> yaml_table text src q)) ->
  exists h' ws, hfor (combine (map Z.of_nat (seq (List.length pre) (List.length ys))) ys) (fun c => set_yaml T (List.length h0) (fst c) (Z.of_nat (List.length done)) (snd c)) h = (h', Ok tt)
    /\ building h0 s (done ++ [pre ++ ws]) h' /\ agree (S (List.length h0)) h h' /\ Forall2 (cell_copied src (copied src k (S (List.length h0)) h') (S (List.length h0)) h') vs ws.
Proof.
  intros TR. induction 1 as [|v y vs ys CJ RJ IH]; intros pns ns pcts cts pre post h En Et Lns Ln Lt Lp B CO JO DO Nest.
  - exists h, []. cbn. destruct post; [|discriminate]. repeat split; auto; try apply B; try apply same_data_refl.
  - destruct post as [|x post]; [discriminate|]. destruct ns as [|n ns]; [discriminate|]. inversion CO as [|ct ? cts' ? CO1 CO2]; subst. inversion JO; subst. inversion DO; subst.
    destruct (read_ycell k d T h0 s done (pre ++ x :: post) h (List.length pre) ct v y TR B) as (h1 & w & E & B1 & A1 & C1); auto.
    + rewrite En, app_length. cbn [List.length]. lia.
    + rewrite Et, nth_error_app2 by lia. now rewrite Lt, Nat.sub_diag.
    + intros q ->. apply Nest. now left.
    + rewrite upd_app_mid, (cons_app_mid pre w post) in B1.
      destruct (IH (pns ++ [n]) ns (pcts ++ [ct]) cts' (pre ++ [w]) post h1) as (h2 & ws & E2 & B2 & A2 & C2); auto; rewrite ?app_length; cbn [List.length] in *; auto; try lia; try (intros q I; apply Nest; now right).
      * now rewrite <- cons_app_mid.
      * now rewrite <- cons_app_mid.
      * exists h2, (w :: ws). rewrite app_length, Nat.add_1_r in E2. rewrite (cons_app_mid pre w ws).
        split; [|split; [exact B2|split; [eapply agree_trans; eauto|constructor; auto; eapply cell_mono; eauto]]].
        cbn [List.length seq map combine hfor fst snd]. unfold hbind at 1. rewrite E. exact E2.
Qed.

Lemma read_yrows k d T h0 s : table_yread k d T -> List.length (cnames s) = List.length (ctypes s) ->
  forall rs data, Forall2 (Forall2 (cell_yaml (table_yaml k src))) rs data -> forall done h,
  building h0 s done h -> Forall (Forall2 cell_ok (ctypes s)) rs -> Forall (Forall (yaml_value_ok text)) rs -> Forall (Forall (fun y => ydepth y <= d)) data ->
  (forall r q, In r rs -> In (VTable (Some q)) r -> q < List.length src /\ (is_nil (tab src q) = false -> yaml_table text src q)) ->
  exists h' ws, hfor (combine (map Z.of_nat (seq (List.length done) (List.length data))) data) (fun r => add_yaml_row T (List.length h0) (fst r) (snd r)) h = (h', Ok tt)
    /\ building h0 s (done ++ ws) h' /\ agree (S (List.length h0)) h h' /\ Forall2 (Forall2 (cell_copied src (copied src k (S (List.length h0)) h') (S (List.length h0)) h')) rs ws.
Proof.
  intros TR LL. induction 1 as [|r js rs data RJ F IH]; intros done h B CO JO DO Nest.
  - exists h, []. cbn. rewrite app_nil_r. repeat split; auto; try apply B; try apply same_data_refl.
  - destruct (append_row h0 s done h B) as (h1 & z & E1 & B1 & A1 & Lz).
    pose proof (Forall_inv CO) as CO1. pose proof (Forall_inv JO) as JO1. pose proof CO1 as LC. apply Forall2_len in LC.
    destruct (read_ycells k d T h0 s done TR _ _ RJ [] (cnames s) [] (ctypes s) [] z h1) as (h2 & ws & E2 & B2 & A2 & C2); auto; try lia.
    + now apply Forall_inv in DO.
    + intros q I. apply (Nest r); auto. now left.
    + destruct (IH (done ++ [ws]) h2) as (h3 & wss & E3 & B3 & A3 & C3); auto.
      * now apply Forall_inv_tail in CO.
      * now apply Forall_inv_tail in JO.
      * now apply Forall_inv_tail in DO.
      * intros r' q I. apply Nest. now right.
      * exists h3, (ws :: wss). rewrite <- cons_app_mid in B3. split; [|split; [exact B3|split]].
        { cbn [List.length seq map combine hfor fst snd]. unfold hbind at 1. unfold add_yaml_row at 1. unfold hbind at 1. rewrite E1.
          unfold numbered, zseq. cbn [List.length] in E2. rewrite E2. rewrite app_length, Nat.add_1_r in E3. exact E3. }
        { eapply agree_trans; [exact A1|]. eapply agree_trans; eauto. }
        { constructor; auto. eapply Forall2_impl; [|exact C2]. intros v w. apply cell_mono. exact A3. }
Qed.

Lemma rmap_lists (data : list (list ydoc)) : rmap (fun y => match y with YList cells => Ok cells | _ => Panic end) (map YList data) = Ok data.
Proof. induction data as [|l data IH]; [reflexivity|]. cbn [map rmap rbind]. rewrite IH. reflexivity. Qed.

Lemma read_ytable : wf_heap src -> forall k fuel d, d < fuel -> table_yread k d (newTableFromYAML_recursive fuel).
Proof.
  intros WS. induction k as [|k IH]; intros fuel d Lf p m h0 TJ DM Hp JT WH; [contradiction|].
  destruct fuel as [|fuel]; [lia|]. cbn [table_yaml] in TJ. destruct TJ as (data & Em & RJ).
  destruct (tab_wf src p WS) as [W _]. set (s := tab src p) in *.
  cbn [newTableFromYAML_recursive].
  assert (G0 : yget m "tableName" = Some (YStr (tname s))) by (rewrite Em; reflexivity).
  assert (G1 : yget m "metadata" = Some (YList (map (fun c => YMap [(fst c, YStr (quoted_type (snd c)))]) (combine (cnames s) (ctypes s)))))
    by (rewrite Em; unfold members_yaml; destruct (struct_shape s); reflexivity).
  assert (G2 : yget m "data" = Some (YList (map YList data))) by (rewrite Em; reflexivity).
  assert (G3 : yget m "isStructShape" = if struct_shape s then Some (YBool true) else None) by (rewrite Em; unfold members_yaml; destruct (struct_shape s); reflexivity).
  assert (DD : Forall (Forall (fun y => ydepth y <= d - 3)) data).
  { apply Forall_forall. intros l I1. apply Forall_forall. intros y I2. pose proof (depth_list _ _ I2) as D1.
    pose proof (depth_list (YList l) (map YList data) (in_map YList _ _ I1)) as D2.
    assert (D3 : ydepth (YList (map YList data)) < ydepth (YMap m)) by (apply (depth_map "data"); rewrite Em; right; left; reflexivity). lia. }
  unfold yaml_rows. rewrite G0, G1, G2, G3. rewrite rmap_lists.
  destruct (is_nil s) eqn:Np.
  { destruct (wf_name _ W) as [[C _]|(_ & N1 & _)]; [congruence|]. rewrite N1. change ("" =? "")%string with true. cbn match.
    exists (h0 ++ [NewNilTable]). split; [reflexivity|]. split; [now apply wf_nil_at|]. split; [rewrite app_length; cbn; lia|].
    split; [intros a Ha; now apply nth_error_app1|]. unfold tab. rewrite app_nth2, Nat.sub_diag by auto. reflexivity. }
  destruct (wf_name _ W) as [[_ Vn]|[Nn _]]; [|congruence].
  assert (NE : (tname s =? "")%string = false) by (destruct (tname s); [destruct Vn as [(c & r & X & _) _]; discriminate|reflexivity]).
  rewrite NE.
  clear G0 G1 G2 G3.
  set (t0 := with_nil false (with_name (tname s) NewNilTable)).
  assert (E0 : new_tab (SetName (tname s)) h0 = (h0 ++ [t0], Ok (List.length h0))).
  { unfold new_tab. rewrite SetName_eq, (proj2 (IsValidTableName_spec _) Vn). reflexivity. }
  assert (WH0 : wf_heap (h0 ++ [t0])).
  { pose proof (new_tab_wf (SetName (tname s)) h0 WH (pres_SetName _ _)) as [X _]. rewrite E0 in X. exact X. }
  unfold hbind at 1. rewrite E0.
  assert (Shape : exists t1, (match (if struct_shape s then Some (YBool true) else None) with
      | Some (YBool b) => on_heap (List.length h0) (SetStructShape b) | _ => hret tt end) (h0 ++ [t0]) = (h0 ++ [t1], Ok tt) /\ wf_heap (h0 ++ [t1]) /\ built s [] [] [] t1).
  { destruct (struct_shape s) eqn:ES.
    - assert (EH : on_heap (List.length h0) (SetStructShape true) (h0 ++ [t0]) = (h0 ++ [with_shape true t0], Ok tt)).
      { unfold on_heap. rewrite nth_error_app2, Nat.sub_diag by auto. cbn [nth_error]. unfold SetStructShape, modify, on_tab. cbn [s_tab s_news].
        unfold new_nils. cbn [map]. rewrite app_nil_r. f_equal. apply upd_app_mid. }
      exists (with_shape true t0). split; [exact EH|]. split; [|repeat split; auto].
      pose proof (on_heap_wf (List.length h0) (SetStructShape true) _ WH0 (pres_SetStructShape _ true)) as [X _]. rewrite EH in X. exact X.
    - exists t0. split; [reflexivity|]. split; [exact WH0|repeat split; auto]. }
  destruct Shape as (t1 & E1 & WH1 & BT1). unfold hbind at 1. rewrite E1.
  unfold hlift at 1. unfold hbind at 1. unfold hbind at 1.
  destruct (add_ycolumns h0 s (cnames s) (ctypes s) t1 [] [] WH1 BT1) as (t2 & E2 & WH2 & BT2); try apply W.
  { symmetry. apply W. }
  rewrite E2. cbn [app] in BT2.
  assert (B2 : building h0 s [] (h0 ++ [t2])).
  { constructor; auto.
    - rewrite app_length. cbn. lia.
    - intros a Ha. now apply nth_error_app1.
    - unfold tab. rewrite app_nth2, Nat.sub_diag by auto. exact BT2. }
  destruct (JT eq_refl p (rt_refl _ _ p) Np) as (_ & _ & JV). fold s in JV.
  assert (D0 : 0 < ydepth (YMap m)) by (cbn; lia).
  assert (TR : table_yread k (d - 3) (newTableFromYAML_recursive fuel)) by (apply IH; lia).
  destruct (read_yrows k (d - 3) _ h0 s TR (eq_sym (wf_types_len _ W)) _ _ RJ [] (h0 ++ [t2]) B2) as (h3 & ws & E3 & B3 & A3 & C3); auto.
  { apply W. }
  { intros r q R Q. assert (N : nests src p q).
    { exists s. split; [unfold s, tab; now apply nth_error_nth'|]. unfold nested_in. apply in_flat_map. exists r. split; [exact R|].
      apply in_flat_map. exists (VTable (Some q)). split; [exact Q|now left]. }
    split; [now apply (nests_valid _ _ _ N)|]. intros Nq q' Hq Nq'.
    apply (JT eq_refl q'); auto. eapply rt_trans; [apply rt_step; exact N|exact Hq]. }
  cbn [List.length] in E3. unfold numbered, zseq, hlift. unfold hbind. rewrite E3.
  exists h3. split; [reflexivity|]. destruct B3 as [WH3 L3 O3 (D1 & D2 & D3 & D4 & D5 & D6 & D7)]. split; [exact WH3|]. split; [exact L3|]. split; [exact O3|].
  cbn [copied]. cbv zeta. fold s. rewrite D1, D2, D3, D4, D5, D6, D7. repeat split; auto.
  cbn [app]. eapply Forall2_impl; [|exact C3]. intros ra rb G. eapply Forall2_impl; [|exact G]. intros v w.
  apply cell_copied_mono; [lia|apply agree_refl|]. intros q q'. apply copied_mono; [lia|apply agree_refl].
Qed.
End Src.
