(** Proofs_JsonCells.v -- the cells of the tables that the JSON reader makes (C50). *)
From Coq Require Import ZArith NArith List String Ascii Bool Lia SpecFloat Arith.
From Verif Require Import Base Model_Names Model_Table Model_Sort Model_Heap Model_TableSet Model_Lex Model_Float Model_Time
  Model_Parser Model_Print Model_Json Spec Spec_Heap Spec_Walk Spec_TableSet Spec_Round Spec_Decimal Spec_Foreign Spec_JsonCells.
From Verif Require Import Proofs_Lib Proofs_Table Proofs_Cells Proofs_Struct Proofs_Api Proofs_Pres Samples Proofs_Heap
  Proofs_Frame Proofs_TableSet Proofs_Lex Proofs_Num Proofs_Float Proofs_Parser Proofs_JsonWrite Proofs_Closest Proofs_Foreign Proofs_JsonRead.
Import ListNotations.
Local Open Scope string_scope.
Local Open Scope list_scope.

Scheme ts_ind := Induction for table_says Sort Prop
  with cs_ind := Induction for cell_says Sort Prop
  with vs_ind := Induction for value_says Sort Prop.
Combined Scheme says_ind from ts_ind, cs_ind, vs_ind.

Lemma cell_value_at t c r : cell_value t c r = at_cell t c r. Proof. reflexivity. Qed.

(** ---------- later changes ---------- *)

Definition same_from (lo : nat) (h h1 : heap) : Prop := forall z, lo <= z < List.length h -> same_data (tab h z) (tab h1 z).

Lemma blank_kept h h1 (p q : ptr) : List.length h <= List.length h1 -> same_from (S p) h h1 -> blank h p q -> blank h1 p q.
Proof.
  unfold ptr in *. intros L S (Q & N & C & R). destruct (S q ltac:(lia)) as (_ & C1 & _ & R1 & _ & _ & N1). split; [lia|]. rewrite N1, C1, R1. auto.
Qed.
Lemma zero_kept (F G : ptr -> Prop) ct v : (forall q, F q -> G q) -> zero_of F ct v -> zero_of G ct v.
Proof. intros FG. destruct v as [| | | | | | |[q|]| |]; cbn; auto. intros [A B]; auto. Qed.
Lemma says_kept h h1 : List.length h <= List.length h1 ->
  (forall m q, table_says h m q -> q < List.length h -> same_from q h h1 -> table_says h1 m q)
  /\ (forall p ct o v, cell_says h p ct o v -> same_from (S p) h h1 -> cell_says h1 p ct o v)
  /\ (forall p ct j v, value_says h p ct j v -> same_from (S p) h h1 -> value_says h1 p ct j v).
Proof.
  intros L. apply says_ind; unfold ptr in *.
  - intros m p J R C IH Lp S. destruct (S p ltac:(lia)) as (A1 & A2 & A3 & A4 & _). constructor.
    + unfold json_table in *. now rewrite A1, A2, A3, A4.
    + now rewrite A3.
    + unfold cell_value in *. rewrite A3, A4. intros data kr cells kc ct v D N T V. eapply IH; eauto. intros z Lz. apply S. lia.
  - intros p ct v Z S. constructor. revert Z. apply zero_kept. intros q. now apply blank_kept.
  - intros p ct v Z S. constructor. revert Z. apply zero_kept. intros q. now apply blank_kept.
  - intros p ct m k j v I V IH S. econstructor; eauto.
  - constructor.
  - econstructor; eauto.
  - econstructor; eauto.
  - constructor.
  - econstructor; eauto.
  - econstructor; eauto.
  - econstructor; eauto.
  - econstructor; eauto.
  - intros p m q Q T IH S. constructor; [unfold ptr in *; lia|]. apply IH; [lia|]. intros z Lz. apply S. lia.
  - intros p q B S. constructor. now apply (blank_kept h).
Qed.

(** ---------- numbers ---------- *)

Lemma integer_part_of wild k f : integer_part k f (float_to_int wild k f).
Proof.
  split; [apply float_to_int_ok|]. intros n d D V R. destruct f as [s|s| |s m e]; try contradiction.
  - cbn in V. subst n. reflexivity.
  - unfold float_to_int. rewrite ratio_eq. cbn [has_value] in V. change (2 ^ Z.max 0 (- e))%Z with (e_down e) in V. change (2 ^ Z.max 0 e)%Z with (e_up e) in V.
    pose proof (e_up_pos e). pose proof (e_down_pos e).
    assert (K : (Z.quot n d = if s then - (Z.pos m * e_up e / e_down e) else Z.pos m * e_up e / e_down e)%Z).
    { rewrite <- (Z.quot_mul_cancel_r n d (e_down e)) by lia. rewrite V.
      destruct s.
      - replace (Z.neg m * e_up e * d)%Z with (- (Z.pos m * e_up e) * d)%Z by lia. rewrite (Z.mul_comm d), Z.quot_mul_cancel_r by lia.
        rewrite Z.quot_opp_l by lia. rewrite Z.quot_div_nonneg by nia. reflexivity.
      - rewrite (Z.mul_comm d), Z.quot_mul_cancel_r by lia. rewrite Z.quot_div_nonneg by nia. reflexivity. }
    cbv beta iota zeta. rewrite <- K, R. reflexivity.
Qed.
Lemma float32_says_of f : float32_says f (float32_of f).
Proof.
  destruct f as [s|s| |s m e]; try reflexivity. cbn [float32_says]. unfold float32_of. rewrite ratio_eq.
  exists (Z.pos m * e_up e)%Z, (e_down e). pose proof (e_up_pos e). pose proof (e_down_pos e). split; [lia|]. split.
  - cbn [has_value]. change (2 ^ Z.max 0 (- e))%Z with (e_down e). change (2 ^ Z.max 0 e)%Z with (e_up e). destruct s; lia.
  - destruct (nearest F32 s (Z.pos m * e_up e) (e_down e)) as [g|] eqn:N.
    + left. apply (nearest_rounds F32 (or_introl eq_refl)) in N; auto; nia.
    + right. split; [|reflexivity]. apply (nearest_none F32 (or_introl eq_refl)) in N; auto; nia.
Qed.

(** ---------- one cell ---------- *)

(** Between h and h' nothing of the tables of h has changed but column kc of row kr of the table at p. *)
Record changed (h h' : heap) (p : ptr) (kc kr : nat) : Prop := {
  ch_len : List.length h <= List.length h';
  ch_other : forall z, z <> p -> z < List.length h -> same_data (tab h z) (tab h' z);
  ch_shape : shape h' p = shape h p;
  ch_cells : forall c r, (c <> kc \/ r <> kr) -> at_cell (tab h' p) c r = at_cell (tab h p) c r }.

Lemma changed_refl h p kc kr : changed h h p kc kr.
Proof. constructor; auto. intros. apply same_data_refl. Qed.
Lemma same_data_trans a b c : same_data a b -> same_data b c -> same_data a c.
Proof. unfold same_data. intros H K. decompose [and] H. decompose [and] K. repeat split; congruence. Qed.
Lemma changed_trans a b c p kc kr : changed a b p kc kr -> changed b c p kc kr -> changed a c p kc kr.
Proof.
  intros [A1 A2 A3 A4] [B1 B2 B3 B4]. constructor; [lia| |congruence|].
  - intros z N L. eapply same_data_trans; [now apply A2|apply B2; auto; lia].
  - intros x r N. rewrite B4, A4; auto.
Qed.

Lemma nth_tab h p : p < List.length h -> nth_error h p = Some (tab h p).
Proof. intros L. unfold tab. now apply nth_error_nth'. Qed.

Lemma set_plain h h' (p : ptr) vt kc kr v : wf_heap h -> p < List.length h -> In vt all_types -> arg_of_type vt v = true -> kc < List.length (ctypes (tab h p)) ->
  on_heap p (SetTByColIndex vt (Z.of_nat kc) (Z.of_nat kr) v) h = (h', Ok tt) ->
  exists ct, nth_error (ctypes (tab h p)) kc = Some ct /\ has_type ct v /\ changed h h' p kc kr /\ at_cell (tab h' p) kc kr = Some v.
Proof.
  intros W P IV AT K E. pose proof (nth_tab h p P) as N. pose proof (Forall_nth_error _ _ _ _ (wh_tables _ W) N) as WT.
  destruct (on_heap_self p (SetTByColIndex vt (Z.of_nat kc) (Z.of_nat kr) v) h _ N) as [N1 R]. rewrite E in N1, R. cbn [fst snd] in N1, R.
  destruct (SetTByColIndex_eq vt (Z.of_nat kc) (Z.of_nat kr) v (mkS (tab h p) (List.length h) []) WT IV AT) as [(ct & NN & Rr & T & HT & E2)|[_ E2]].
  - unfold ColCount. cbn [s_tab]. rewrite <- (wf_types_len _ WT). lia.
  - rewrite E2 in *. cbn [fst snd s_tab] in *. rewrite Nat2Z.id in *. exists ct. split; [exact T|]. split; [exact HT|].
    unfold Proofs_Cells.written in N1. cbn [on_tab s_tab] in N1. rewrite !Nat2Z.id in N1.
    assert (TB : tab h' p = with_rows (put kc kr v (rows (tab h p))) (tab h p)) by (unfold tab at 1; now apply nth_error_nth).
    split; [constructor|].
    + pose proof (on_heap_len p (SetTByColIndex vt (Z.of_nat kc) (Z.of_nat kr) v) h) as L. now rewrite E in L.
    + intros z Nz Lz. pose proof (on_heap_frame p (SetTByColIndex vt (Z.of_nat kc) (Z.of_nat kr) v) h z Lz Nz) as Fz. rewrite E in Fz. cbn [fst] in Fz.
      replace (tab h' z) with (tab h z); [apply same_data_refl|]. symmetry. now apply tab_eq.
    + unfold shape. rewrite TB. cbn. now rewrite put_rows_length.
    + intros c r O. rewrite TB, at_cell_put. destruct (Nat.eqb_spec kr r), (Nat.eqb_spec kc c); cbn [andb]; auto. subst. destruct O; congruence.
    + rewrite TB, at_cell_put, !Nat.eqb_refl. cbn [andb].
      destruct (wf_at_cell (tab h p) kc kr WT) as (ct' & v' & _ & _ & -> & _); [rewrite <- (wf_types_len _ WT); exact K|unfold RowCount in Rr; cbn [s_tab] in Rr; lia|reflexivity].
  - rewrite E2 in R. discriminate.
Qed.
Lemma set_nested h h' (p q : ptr) kc kr : wf_heap h -> p < q -> q < List.length h -> kc < List.length (ctypes (tab h p)) ->
  SetTableByColIndex p (Z.of_nat kc) (Z.of_nat kr) (Some q) h = (h', Ok tt) ->
  nth_error (ctypes (tab h p)) kc = Some "*Table" /\ changed h h' p kc kr /\ at_cell (tab h' p) kc kr = Some (VTable (Some q)).
Proof.
  unfold ptr in *. intros W PQ Q K E. cbn [SetTableByColIndex] in E. destruct (set_parent_wf q p h W ltac:(lia)) as [W1 L1].
  assert (TP : tab (set_parent q p h) p = tab h p) by (apply tab_eq, set_parent_frame; lia).
  destruct (set_plain (set_parent q p h) h' p "*Table" kc kr (VTable (Some q)) W1 ltac:(lia) ltac:(now apply str_in_In) eq_refl ltac:(now rewrite TP) E) as (ct & T & HT & [C1 C2 C3 C4] & V).
  rewrite TP in *. cbn in HT. subst ct. split; [exact T|]. split; [|exact V]. constructor; [lia| | |exact C4].
  - intros z Nz Lz. eapply same_data_trans; [|apply C2; [exact Nz|lia]]. unfold set_parent. destruct (Nat.eq_dec z q) as [->|Ne].
    + rewrite tab_upd_same by lia. repeat split.
    + rewrite tab_upd_other by exact Ne. apply same_data_refl.
  - rewrite C3. unfold shape. now rewrite TP.
Qed.

Definition reads_says (T : list (string * json) -> HM ptr) : Prop :=
  forall m h h' q, wf_heap h -> T m h = (h', Ok q) -> grown h h' /\ List.length h <= q < List.length h' /\ table_says h' m q.

Lemma rmap_numbers_inv wild l fs : rmap number_of l = Ok fs ->
  Forall2 (fun j c => exists t f, j = JNum t /\ ParseFloat F64 t = Some f /\ integer_part KUint8 f (Z.of_nat (nat_of_ascii c))) l
    (map (fun f => chr (float_to_int wild KUint8 f)) fs).
Proof.
  intros E. apply rmap_inv in E. induction E as [|j f l fs N _ IH]; cbn [map]; constructor; [|exact IH].
  destruct j as [|x|s|x|x|x]; try discriminate. cbn [number_of] in N. destruct (ParseFloat F64 s) as [g|] eqn:PF; [|discriminate]. injection N as ->.
  exists s, f. split; [reflexivity|]. split; [exact PF|]. pose proof (float_to_int_ok wild KUint8 f) as R.
  replace (Z.of_nat (nat_of_ascii (chr (float_to_int wild KUint8 f)))) with (float_to_int wild KUint8 f); [apply integer_part_of|].
  rewrite <- (code_chr (float_to_int wild KUint8 f)) at 1.
  - unfold code. unfold nat_of_ascii. now rewrite N_nat_Z.
  - unfold in_range in R. cbn in R. lia.
Qed.

Lemma int_has_type ct k z : int_kind ct = Some k -> has_type ct (VInt k z).
Proof.
  unfold int_kind. intros H.
  repeat match type of H with
         | (if (?x =? ?y)%string then _ else _) = _ => destruct (String.eqb_spec x y) as [->|]; [injection H as <-; cbn; auto|]
         | (if (?x =? ?y)%string || (?x =? ?z)%string then _ else _) = _ =>
             destruct (String.eqb_spec x y) as [->|]; [injection H as <-; cbn; auto|];
             destruct (String.eqb_spec x z) as [->|]; [injection H as <-; cbn; auto|]; cbn [orb] in H
         end. discriminate.
Qed.

Lemma set_json_says h0 wild T (p : ptr) kc kr j h h' : grown h0 h -> List.length h0 <= p < List.length h -> reads_says T -> 
  set_json wild T p (Z.of_nat kc) (Z.of_nat kr) j h = (h', Ok tt) ->
  exists ct v, nth_error (ctypes (tab h p)) kc = Some ct /\ changed h h' p kc kr /\ at_cell (tab h' p) kc kr = Some v /\ value_says h' p ct j v.
Proof.
  unfold ptr in *. intros G P RS E. pose proof (gr_wf _ _ G) as W. unfold set_json in E. apply hbind_ok in E. destruct E as (h1 & ct & E1 & E).
  injection E1 as <- Z. rewrite znth_of_nat in Z. destruct (nth_error (ctypes (tab h p)) kc) as [ct1|] eqn:NT; [|discriminate]. injection Z as ->.
  assert (K : kc < List.length (ctypes (tab h p))) by (apply nth_error_Some; congruence).
  assert (SP : forall vt v, In vt all_types -> arg_of_type vt v = true -> on_heap p (SetTByColIndex vt (Z.of_nat kc) (Z.of_nat kr) v) h = (h', Ok tt) ->
     (has_type ct v -> value_says h' p ct j v) ->
     exists ct0 v, Some ct = Some ct0 /\ changed h h' p kc kr /\ at_cell (tab h' p) kc kr = Some v /\ value_says h' p ct0 j v).
  { intros vt v IV AT EE VS. destruct (set_plain h h' p vt kc kr v W ltac:(lia) IV AT K EE) as (ct1 & T1 & HT & C & V).
    rewrite NT in T1. injection T1 as <-. exists ct, v. auto. }
  destruct j as [|b|x|s|l|m].
  - destruct (String.eqb_spec ct "*Table") as [->|]; [|discriminate]. apply hbind_ok in E. destruct E as (h1 & q & E1 & E).
    pose proof E1 as E1'. apply new_tab_ok in E1 as [-> Lq]. cbn in E1'. injection E1' as <-.
    set (h1 := h ++ _) in *.
    assert (G1 : grown h h1).
    { destruct (safe_new h 0 (ret tt) ltac:(intros; apply pres_ret) ltac:(intros; apply above_ret) h (grown_refl _ W) ltac:(lia)) as (G1 & _). exact G1. }
    assert (TP : tab h1 p = tab h p) by (apply tab_eq, (gr_old _ _ G1); lia).
    destruct (set_nested h1 h' p (List.length h) kc kr (gr_wf _ _ G1) ltac:(lia) Lq ltac:(now rewrite TP) E) as (_ & [C1 C2 C3 C4] & V).
    exists "*Table", (VTable (Some (List.length h))). split; [reflexivity|]. split; [|split; [exact V|]].
    + pose proof (gr_len _ _ G1). constructor; [lia| | |].
      * intros z Nz Lz. replace (tab h z) with (tab h1 z) by (apply tab_eq, (gr_old _ _ G1); lia). apply C2; lia.
      * rewrite C3. unfold shape. now rewrite TP.
      * now rewrite <- TP.
    + constructor. destruct (C2 (List.length h) ltac:(lia) Lq) as (_ & A2 & _ & A4 & _ & _ & A7).
      unfold blank. rewrite A2, A4, A7. split; [unfold ptr; lia|]. unfold tab, h1. rewrite app_nth2, Nat.sub_diag by lia. cbn. auto.
  - eapply SP; [| |exact E|]; [now apply str_in_In|reflexivity|]. cbn [has_type]. intros ->. constructor.
  - apply hbind_ok in E. destruct E as (h1 & f & E1 & E). unfold hlift in E1. injection E1 as <- E1. cbn [number_of] in E1.
    destruct (ParseFloat F64 x) as [f'|] eqn:PF; [|discriminate]. injection E1 as ->. destruct (int_kind ct) as [k|] eqn:IK.
    + pose proof (int_kind_type _ _ IK) as [I A]. eapply SP; [exact I| |exact E|]; [apply A|]. intros HT. econstructor; [exact PF|exact HT|apply integer_part_of].
    + destruct (String.eqb_spec ct "float32") as [->|].
      * eapply SP; [| |exact E|]; [now apply str_in_In|reflexivity|]. intros _. econstructor; [exact PF|apply float32_says_of].
      * destruct (String.eqb_spec ct "float64") as [->|]; [|discriminate].
        eapply SP; [| |exact E|]; [now apply str_in_In|reflexivity|]. intros _. now constructor.
  - destruct (String.eqb_spec ct "rune") as [->|].
    + destruct (decode s) as [[r w]|] eqn:D; [|discriminate]. eapply SP; [| |exact E|]; [now apply str_in_In|reflexivity|]. intros _. econstructor; exact D.
    + destruct (String.eqb_spec ct "time.Time") as [->|].
      * apply hbind_ok in E. destruct E as (h1 & t & E1 & E). unfold hlift in E1. injection E1 as <- E1.
        destruct (time_of_text s) as [t'|] eqn:TT; [|discriminate]. injection E1 as ->.
        eapply SP; [| |exact E|]; [now apply str_in_In|reflexivity|]. intros _. now constructor.
      * destruct (String.eqb_spec ct "string") as [->|]; [|discriminate].
        eapply SP; [| |exact E|]; [now apply str_in_In|reflexivity|]. intros _. constructor.
  - apply hbind_ok in E. destruct E as (h1 & fs & E1 & E). unfold hlift in E1. injection E1 as <- E1.
    eapply SP; [| |exact E|]; [now apply str_in_In|reflexivity|]. intros HT. constructor; [exact HT|]. now apply rmap_numbers_inv.
  - destruct (String.eqb_spec ct "*Table") as [->|]; [|discriminate]. apply hbind_ok in E. destruct E as (h1 & q & E1 & E).
    destruct (RS m h h1 q W E1) as (G1 & Q & TS). unfold ptr in *.
    assert (TP : tab h1 p = tab h p) by (apply tab_eq, (gr_old _ _ G1); lia).
    destruct (set_nested h1 h' p q kc kr (gr_wf _ _ G1) ltac:(lia) ltac:(lia) ltac:(now rewrite TP) E) as (_ & [C1 C2 C3 C4] & V).
    exists "*Table", (VTable (Some q)). split; [reflexivity|]. split; [|split; [exact V|]].
    + constructor; [lia| | |].
      * intros z Nz Lz. replace (tab h z) with (tab h1 z) by (apply tab_eq, (gr_old _ _ G1); lia). apply C2; lia.
      * rewrite C3. unfold shape. now rewrite TP.
      * now rewrite <- TP.
    + constructor; [unfold ptr; lia|]. apply (proj1 (says_kept h1 h' C1) m q TS ltac:(lia)). intros z Lz. apply C2; lia.
Qed.

(** ---------- one row ---------- *)

(** The members of one object *)
Lemma members_says h0 wild T (p : ptr) kc kr : reads_says T -> reads_new h0 T -> forall mm h h', grown h0 h -> List.length h0 <= p < List.length h ->
  hfor mm (fun kv => set_json wild T p (Z.of_nat kc) (Z.of_nat kr) (snd kv)) h = (h', Ok tt) ->
  changed h h' p kc kr /\ grown h0 h' /\
  (mm = [] /\ h' = h \/ exists (k : string) (j : json) ct v, In (k, j) mm /\ nth_error (ctypes (tab h p)) kc = Some ct /\ at_cell (tab h' p) kc kr = Some v /\ value_says h' p ct j v).
Proof.
  unfold ptr in *. intros RS RN. induction mm as [|[k j] mm IH]; intros h h' G P E; cbn [hfor] in E.
  - injection E as <-. split; [apply changed_refl|]. split; [exact G|]. now left.
  - apply hbind_ok in E. destruct E as (h1 & [] & E1 & E). cbn [snd] in E1.
    destruct (safe_set_json h0 wild T p (Z.of_nat kc) (Z.of_nat kr) j (S p) ltac:(lia) RN h G ltac:(lia)) as (G1 & L1 & _). rewrite E1 in G1, L1. cbn [fst] in *.
    destruct (set_json_says h0 wild T p kc kr j h h1 G P RS E1) as (ct & v & NT & C & V & VS).
    destruct (IH h1 h' G1 ltac:(lia) E) as (C2 & G2 & D). split; [now apply (changed_trans _ h1)|]. split; [exact G2|]. right.
    destruct D as [[-> ->]|(k2 & j2 & ct2 & v2 & I & NT2 & V2 & VS2)].
    + exists k, j, ct, v. cbn [In]. auto.
    + exists k2, j2, ct2, v2. split; [now right|]. split; [|auto]. rewrite <- NT2. f_equal.
      pose proof (ch_shape _ _ _ _ _ C) as S. unfold shape in S. cbv zeta in S. injection S. congruence.
Qed.

Lemma hfor_app {A} (l1 l2 : list A) (body : A -> HM unit) h h' : hfor (l1 ++ l2) body h = (h', Ok tt) ->
  exists h1, hfor l1 body h = (h1, Ok tt) /\ hfor l2 body h1 = (h', Ok tt).
Proof.
  revert h. induction l1 as [|x l1 IH]; intros h E; cbn [app hfor] in *; [exists h; split; [reflexivity|exact E]|].
  apply hbind_ok in E. destruct E as (h2 & [] & E1 & E2). destruct (IH _ E2) as (h1 & F1 & F2). exists h1. split; [|exact F2]. unfold hbind. now rewrite E1.
Qed.
Lemma numbered_snoc {A} (l : list A) x : numbered (l ++ [x]) = numbered l ++ [(Z.of_nat (List.length l), x)].
Proof.
  unfold numbered, zseq. rewrite app_length. cbn [List.length]. rewrite Nat.add_1_r, seq_S, map_app. cbn [map Nat.add].
  enough (K : forall (a : list Z) (l : list A) b x, List.length a = List.length l -> combine (a ++ [b]) (l ++ [x]) = combine a l ++ [(b, x)]).
  { apply K. now rewrite map_length, seq_length. }
  clear. induction a as [|y a IH]; intros [|z l] b x L; try discriminate; [reflexivity|]. cbn. f_equal. apply IH. now injection L.
Qed.
Lemma hfor_numbered {A} (body : Z * A -> HM unit) (I : nat -> heap -> Prop) (l : list A) h h' :
  hfor (numbered l) body h = (h', Ok tt) -> I 0 h ->
  (forall k x h h', nth_error l k = Some x -> I k h -> body (Z.of_nat k, x) h = (h', Ok tt) -> I (S k) h') -> I (List.length l) h'.
Proof.
  revert h'. induction l as [|x l IH] using rev_ind; intros h' E I0 ST.
  - cbn in E. injection E as <-. exact I0.
  - rewrite numbered_snoc in E. apply hfor_app in E. destruct E as (h1 & E1 & E2). cbn [hfor] in E2. apply hbind_ok in E2. destruct E2 as (h2 & [] & E2 & E3). injection E3 as <-.
    rewrite app_length, Nat.add_1_r. apply (ST _ x h1).
    + rewrite nth_error_app2, Nat.sub_diag by lia. reflexivity.
    + apply IH; auto. intros k y ha hb N. apply ST. rewrite nth_error_app1; [exact N|]. apply nth_error_Some. congruence.
    + exact E2.
Qed.

Lemma shape_types h h' p : shape h' p = shape h p -> ctypes (tab h' p) = ctypes (tab h p).
Proof. unfold shape. cbv zeta. intros S. injection S. auto. Qed.

Record row_inv (h0 hr : heap) (p : ptr) (kr : nat) (cells : list json) (k : nat) (h : heap) : Prop := {
  ri_grown : grown h0 h;
  ri_len : List.length hr <= List.length h;
  ri_shape : shape h p = shape hr p;
  ri_other : forall z, z <> p -> z < List.length hr -> same_data (tab hr z) (tab h z);
  ri_rows : forall c r, r <> kr -> at_cell (tab h p) c r = at_cell (tab hr p) c r;
  ri_width : forall c n j more, c < k -> nth_error cells c = Some (JObj ((n, j) :: more)) -> c < List.length (ctypes (tab hr p));
  ri_done : forall c ct v, c < k -> nth_error (ctypes (tab hr p)) c = Some ct -> at_cell (tab h p) c kr = Some v -> cell_says h p ct (nth_error cells c) v;
  ri_rest : forall c ct v, k <= c -> nth_error (ctypes (tab hr p)) c = Some ct -> at_cell (tab h p) c kr = Some v -> zero_of (blank h p) ct v }.

Lemma row_says h0 wild T (p : ptr) kr cells hr h' : reads_says T -> reads_new h0 T -> grown h0 hr -> List.length h0 <= p < List.length hr ->
  (forall c ct v, nth_error (ctypes (tab hr p)) c = Some ct -> at_cell (tab hr p) c kr = Some v -> zero_of (blank hr p) ct v) ->
  hfor (numbered cells) (fun c =>
        match snd c with
        | JObj m => hfor m (fun kv => set_json wild T p (fst c) (Z.of_nat kr) (snd kv))
        | _ => hlift Panic
        end) hr = (h', Ok tt) ->
  row_inv h0 hr p kr cells (List.length cells) h'.
Proof.
  unfold ptr in *. intros RS RN G P Z E. revert E. 
  intros E. apply (hfor_numbered _ (row_inv h0 hr p kr cells) cells hr h' E).
  - constructor; auto; try (intros; lia); [intros; apply same_data_refl|]. intros c ct v _. apply Z.
  - clear h' E. intros k x h h' N [I1 I2 I3 I4 I5 I6 I7 I8] E. cbn [fst snd] in E. destruct x as [|x|x|x|x|mm]; try discriminate.
    pose proof (shape_types _ _ _ I3) as CT.
    destruct (members_says h0 wild T p k kr RS RN mm h h' I1 ltac:(unfold ptr; lia) E) as ([C1 C2 C3 C4] & G' & D).
    assert (SF : same_from (S p) h h') by (intros z Lz; apply C2; lia).
    constructor.
    + exact G'.
    + lia.
    + congruence.
    + intros z Nz Lz. eapply same_data_trans; [now apply I4|]. apply C2; [exact Nz|lia].
    + intros c r Nr. rewrite C4 by auto. now apply I5.
    + intros c n j more Lc Nc. destruct (Nat.eq_dec c k) as [->|Ne]; [|apply (I6 c n j more); [lia|exact Nc]].
      rewrite N in Nc. injection Nc as ->. destruct D as [[D _]|(k2 & j2 & ct & v & _ & NT & _)]; [discriminate|]. rewrite <- CT. apply nth_error_Some. congruence.
    + intros c ct v Lc Tc Vc. destruct (Nat.eq_dec c k) as [->|Ne].
      * rewrite N. destruct D as [[-> ->]|(k2 & j2 & ct2 & v2 & I & NT & V2 & VS)].
        -- constructor. apply (I8 k); auto.
        -- rewrite CT, Tc in NT. injection NT as <-. rewrite V2 in Vc. injection Vc as <-. econstructor; eauto.
      * rewrite C4 in Vc by auto. apply (proj1 (proj2 (says_kept h h' C1))); [|exact SF]. apply I7; auto. lia.
    + intros c ct v Lc Tc Vc. rewrite C4 in Vc by (left; lia). apply (zero_kept (blank h p)); [intros q; now apply blank_kept|]. apply (I8 c); auto. lia.
Qed.

(** ---------- all rows ---------- *)

Lemma zeros_at q ts : Forall (fun ct => In ct all_types) ts -> forall n c ct v, nth_error ts c = Some ct -> nth_error (Proofs_Table.zeros n ts) c = Some v ->
  n + ntab ts <= q -> zero_of (fun x => n <= x < q) ct v.
Proof.
  unfold ntab. induction 1 as [|t ts I F IH]; intros n c ct v N V L; [destruct c; discriminate|].
  cbn [Proofs_Table.zeros] in V. cbn [filter] in L. destruct (is_tab t) eqn:IT; destruct c as [|c]; cbn [nth_error List.length] in *.
  - injection N as ->. injection V as <-. cbn. unfold is_tab in IT. apply String.eqb_eq in IT. split; [exact IT|unfold ptr; lia].
  - apply (zero_kept (fun x => S n <= x < q)); [unfold ptr; intros; lia|]. eapply IH; eauto. lia.
  - injection N as ->. injection V as <-. now apply zplain_ok.
  - eapply IH; eauto.
Qed.

(** A new row holds zero values; nothing else changes. *)
Lemma AppendRow_cells h0 h h1 (p : ptr) : grown h0 h -> List.length h0 <= p < List.length h -> on_heap p AppendRow h = (h1, Ok tt) ->
  (forall z, z <> p -> z < List.length h -> same_data (tab h z) (tab h1 z))
  /\ (forall c r, r < List.length (rows (tab h p)) -> at_cell (tab h1 p) c r = at_cell (tab h p) c r)
  /\ (forall c ct v, nth_error (ctypes (tab h1 p)) c = Some ct -> at_cell (tab h1 p) c (List.length (rows (tab h p))) = Some v -> zero_of (blank h1 p) ct v).
Proof.
  unfold ptr in *. intros G P E. pose proof (gr_wf _ _ G) as W. pose proof (nth_tab h p ltac:(lia)) as N. pose proof (Forall_nth_error _ _ _ _ (wh_tables _ W) N) as WT.
  destruct (on_heap_self p AppendRow h _ N) as [N1 R]. pose proof E as E0. unfold on_heap in E0. rewrite N in E0. rewrite E in N1, R. cbn [fst snd] in N1, R.
  rewrite AppendRow_eq in * by exact WT. cbn [s_tab] in *. destruct (is_nil (tab h p)); [discriminate|]. injection E0 as E0.
  unfold row_added in *. cbn [s_tab s_news fst app] in *. unfold next in *. cbn [s_base s_news List.length] in *. rewrite ?Nat.add_0_r in *.
  set (z := Proofs_Table.zeros (List.length h) (ctypes (tab h p))) in *.
  assert (TB : tab h1 p = with_rows (rows (tab h p) ++ [z]) (tab h p)) by (unfold tab at 1; now apply nth_error_nth).
  split; [|split].
  - intros y Ny Ly. pose proof (on_heap_frame p AppendRow h y Ly Ny) as Fy. rewrite E in Fy. cbn [fst] in Fy.
    replace (tab h1 y) with (tab h y); [apply same_data_refl|]. symmetry. now apply tab_eq.
  - intros c r L. rewrite TB. unfold at_cell. cbn [rows with_rows]. now rewrite nth_error_app1 by lia.
  - rewrite TB. unfold at_cell. cbn [rows with_rows ctypes]. rewrite nth_error_app2, Nat.sub_diag by lia. cbn [nth_error]. intros c ct v T V.
    assert (L1 : List.length h1 = List.length h + ntab (ctypes (tab h p))).
    { rewrite <- E0, app_length, upd_length. unfold new_nils. now rewrite map_length, repeat_length. }
    apply (zero_kept (fun x => List.length h <= x < List.length h1)).
    + intros q Q. split; [unfold ptr; lia|].
      assert (NQ : exists b, nth_error h1 q = Some (mkT "" [] [] [] [] [] false true b)).
      { rewrite <- E0, nth_error_app2, upd_length by (rewrite upd_length; lia). unfold new_nils. rewrite nth_error_map.
        destruct (nth_error (repeat true _) (q - _)) eqn:NR; [|apply nth_error_None in NR; rewrite repeat_length in NR; lia]. cbn. eexists. reflexivity. }
      destruct NQ as [b NQ]. unfold tab. rewrite (nth_error_nth h1 q _ NQ). cbn. auto.
    + refine (zeros_at _ _ (wf_types _ WT) (List.length h) c ct v T V _). lia.
Qed.

Record rows_inv (h0 : heap) (p : ptr) n cs ts (data : list json) (k : nat) (h : heap) : Prop := {
  rs_grown : grown h0 h;
  rs_len : p < List.length h;
  rs_shape : shape h p = (n, cs, ts, k);
  rs_width : forall kr rj, kr < k -> nth_error data kr = Some rj -> exists cells, rj = JArr cells
     /\ forall kc x j more, nth_error cells kc = Some (JObj ((x, j) :: more)) -> kc < List.length ts;
  rs_cells : forall kr cells kc ct v, kr < k -> nth_error data kr = Some (JArr cells) -> nth_error ts kc = Some ct -> at_cell (tab h p) kc kr = Some v ->
     cell_says h p ct (nth_error cells kc) v }.

Lemma rows_says h0 wild T (p : ptr) n cs ts data h h' : reads_says T -> reads_new h0 T -> grown h0 h -> List.length h0 <= p < List.length h ->
  shape h p = (n, cs, ts, 0) -> hfor (numbered data) (fun r => add_row wild T p (fst r) (snd r)) h = (h', Ok tt) ->
  rows_inv h0 p n cs ts data (List.length data) h'.
Proof.
  unfold ptr in *. intros RS RN G P S E. apply (hfor_numbered _ (rows_inv h0 p n cs ts data) data h h' E).
  - constructor; auto; try (intros; lia).
  - destruct P as [P0 _]. clear h h' G S E. intros k x h h' N [I1 I2 I3 I4 I5] E. cbn [fst snd] in E.
    unfold add_row in E. apply hbind_ok in E. destruct E as (h1 & [] & E1 & E).
    destruct (AppendRow_shape h0 h h1 p I1 ltac:(unfold ptr; lia) E1) as (G1 & L1 & S1). rewrite I3 in S1.
    destruct (AppendRow_cells h0 h h1 p I1 ltac:(unfold ptr; lia) E1) as (A1 & A2 & A3).
    apply shape_tab in I3 as (_ & _ & _ & RL). rewrite RL in A2, A3.
    destruct x as [|x|x|x|cells|x]; try discriminate.
    pose proof (row_says h0 wild T p k cells h1 h' RS RN G1 ltac:(unfold ptr; lia) A3 E) as [R1 R2 R3 R4 R5 R6 R7 R8].
    apply shape_tab in S1 as (Sn & Sc & St & _). rewrite St in *.
    assert (SF : same_from (S p) h h') by (intros z Lz; eapply same_data_trans; [apply A1; lia|apply R4; lia]).
    constructor.
    + exact R1.
    + lia.
    + rewrite R3. unfold shape. cbv zeta. destruct (AppendRow_shape h0 h h1 p I1 ltac:(unfold ptr; lia) E1) as (_ & _ & S2). rewrite Sn, Sc, St. f_equal.
      revert S2. unfold shape. cbv zeta. rewrite RL. congruence.
    + intros kr rj L Nr. destruct (Nat.eq_dec kr k) as [->|Ne]; [|apply (I4 kr); auto; lia].
      rewrite N in Nr. injection Nr as <-. exists cells. split; [reflexivity|]. intros kc y j more Nc. apply (R6 kc y j more); [|exact Nc]. apply nth_error_Some. congruence.
    + intros kr cs' kc ct v L Nr Tc Vc. destruct (Nat.eq_dec kr k) as [->|Ne].
      * rewrite N in Nr. injection Nr as <-. destruct (le_lt_dec (List.length cells) kc) as [Le|Lt]; [|now apply R7].
        rewrite (proj2 (nth_error_None _ _) Le). constructor. now apply (R8 kc).
      * rewrite R5 in Vc by exact Ne. rewrite A2 in Vc by lia. apply (proj1 (proj2 (says_kept h h' ltac:(lia)))); [|exact SF]. apply (I5 kr); auto. lia.
Qed.

(** ---------- tables and table sets ---------- *)

Lemma no_data_says h m p : json_table h m p -> (forall l, jget m "data" <> Some (JArr l)) -> table_says h m p.
Proof. intros J N. constructor; [exact J|..]; intros data *; intros D; destruct (N _ D). Qed.

Lemma json_reads_says wild : forall fuel, reads_says (newTableFromJSON_recursive fuel wild).
Proof.
  induction fuel as [|fuel IH]; intros m h h' p W E; [discriminate|].
  destruct (json_reads_new h wild (S fuel) 0 m h (grown_refl _ W) ltac:(lia)) as (G & L & Q). rewrite E in G, L, Q. cbn [fst snd] in *.
  destruct (Q p eq_refl) as [Q1 _]. split; [exact G|]. split; [exact Q1|].
  pose proof (json_table_read (S fuel) wild m h h' p W E) as J.
  cbn [newTableFromJSON_recursive] in E.
  apply hbind_ok in E. destruct E as (h1 & p1 & E1 & E).
  destruct (jget m "tableName") as [[|x|x|n|l|m']|]; try discriminate.
  destruct (safe_new h 0 (SetName n) ltac:(intros; apply pres_SetName) ltac:(intros; apply above_SetName) h (grown_refl _ W) ltac:(lia)) as (G1 & L1 & Q2).
  rewrite E1 in G1, L1, Q2. cbn [fst snd] in *. destruct (Q2 p1 eq_refl) as [P1 _]. apply new_named in E1 as S1.
  apply hbind_ok in E. destruct E as (h2 & [] & E2 & E).
  destruct (struct_shape_kept h h1 h2 p1 (match jget m "isStructShape" with Some (JBool b) => Some b | _ => None end) G1 P1) as (G2 & L2 & S2).
  { rewrite <- E2. destruct (jget m "isStructShape") as [[|x|x|y|l|m']|]; reflexivity. }
  apply hbind_ok in E. destruct E as (h3 & meta & E3 & E). unfold hlift in E3. injection E3 as <- E3.
  apply hbind_ok in E. destruct E as (h4 & [] & E4 & E).
  destruct (cols_for h p1 (add_column p1) json_column) with (l := meta) (h := h2) (h' := h4) as (G4 & L4 & new & F & S4); [|exact G2|lia|exact E4|].
  { intros x ha hb _ _ A. unfold add_column in A. destruct x as [|x|x|x|x|mm]; try discriminate.
    destruct (last mm ("", JNull)) as [cn [|x|x|ct|l|m']] eqn:LA; try discriminate. exists cn, ct. split; [exists mm; auto|exact A]. }
  rewrite S2, S1 in S4. cbn [app] in S4. unfold jget_arr in E.
  destruct (jget m "data") as [[|x|x|y|data|m']|] eqn:D; try (apply no_data_says; [exact J|intros; congruence]).
  apply hbind_ok in E. destruct E as (h5 & [] & E5 & E). injection E as <- <-.
  destruct (rows_says h wild (newTableFromJSON_recursive fuel wild) p1 n (map fst new) (map snd new) data h4 h5 IH ltac:(apply json_reads_new) G4 ltac:(lia) S4 E5) as [R1 R2 R3 R4 R5].
  apply shape_tab in R3 as (_ & _ & T & _). constructor; [exact J|..].
  - rewrite D. intros data' kr rj [= <-] N. rewrite T. apply (R4 kr); [|exact N]. apply nth_error_Some. congruence.
  - rewrite D, T. intros data' kr cells kc ct v [= <-] N. apply R5; [|exact N]. apply nth_error_Some. congruence.
Qed.

Lemma tables_from_json_says wild : forall l s h h' s', wf_heap h -> tables_from_json wild l s h = (h', Ok s') ->
  grown h h' /\ exists ps, ts_tables s' = ts_tables s ++ map Some ps
    /\ Forall2 (fun j (p : ptr) => exists m, j = JObj m /\ p < List.length h' /\ table_says h' m p) l ps.
Proof.
  induction l as [|j l IH]; intros s h h' s' W E; cbn [tables_from_json] in E.
  - injection E as <- <-. split; [now apply grown_refl|]. exists []. rewrite app_nil_r. auto.
  - destruct j as [|x|x|x|x|m]; try discriminate. apply hbind_ok in E. destruct E as (h1 & q & E1 & E).
    destruct (json_reads_says wild max_depth m h h1 q W E1) as (G1 & Q & TS).
    apply hbind_ok in E. destruct E as (h2 & s2 & E2 & E).
    pose proof (AppendTable_all h1 s (Some q) s2) as AA. destruct (AppendTable h1 s (Some q)) as [s1 x1]. injection E2 as <- X. destruct (AA X) as [T N].
    destruct (IH s2 h1 h' s' (gr_wf _ _ G1) E) as (G2 & ps & T2 & F). split; [now apply (grown_trans _ h1)|].
    exists (q :: ps). split; [rewrite T2, T, <- app_assoc; reflexivity|]. constructor; [|exact F].
    exists m. split; [reflexivity|]. pose proof (gr_len _ _ G2). split; [lia|].
    apply (proj1 (says_kept h1 h' ltac:(lia)) m q TS ltac:(lia)). intros z Lz.
    replace (tab h' z) with (tab h1 z) by (symmetry; apply tab_eq, (gr_old _ _ G2); lia). apply same_data_refl.
Qed.
