(** Proofs_JsonWrite.v -- the text that getTableAsJSON writes, as a JSON value. *)
From Coq Require Import ZArith NArith List String Ascii Bool SpecFloat Lia Relations.
From Verif Require Import Base Model_Names Model_Table Model_Sort Model_Heap Model_TableSet Model_Lex Model_Float Model_Time
  Model_Parser Model_Print Model_Json Spec Spec_Heap Spec_Walk Spec_Text Spec_Json Proofs_Lib Proofs_Table Proofs_Cells Proofs_Struct Proofs_Api Proofs_Api2 Proofs_Copy
  Proofs_Heap Proofs_Walk Proofs_Lex Proofs_Num Proofs_Float Proofs_FloatText Proofs_Lines Proofs_JsonText.
Import ListNotations.
Local Open Scope list_scope.
Local Open Scope string_scope.

(** The JSON value of a cell; [T] says what the members of a nested table are. *)
Definition cell_json (T : ptr -> list (string * json) -> Prop) (h : heap) (ct : string) (v : value) (j : json) : Prop :=
  match v with
  | VBool b => j = JBool b
  | VString s => j = JStr s
  | VInt _ z => j = if String.eqb ct "rune" then JStr (encode z) else JNum (dec_of z)
  | VFloat32 f => j = JNum (format_short F32 f)
  | VFloat64 f => j = JNum (format_short F64 f)
  | VBytes o => j = JArr (map (fun c => JNum (dec_of (code c))) (match o with Some l => l | None => [] end))
  | VTime t => j = JStr (time_text t)
  | VTable (Some q) => (is_nil (tab h q) = true /\ j = JNull) \/ (is_nil (tab h q) = false /\ exists m, T q m /\ j = JObj m)
  | _ => False
  end.
Inductive row_json (T : ptr -> list (string * json) -> Prop) (h : heap) : list string -> list string -> list value -> list json -> Prop :=
| rj_nil : row_json T h [] [] [] []
| rj_cons n ns ct cts v vs j js : cell_json T h ct v j -> row_json T h ns cts vs js ->
    row_json T h (n :: ns) (ct :: cts) (v :: vs) (JObj [(n, j)] :: js).
Definition members_json (t : table) (data : list json) : list (string * json) :=
  ("tableName", JStr (tname t)) ::
  (if struct_shape t then [("isStructShape", JBool true)] else [])%list ++
  [("metadata", JArr (map (fun c => JObj [(fst c, JStr (snd c))]) (combine (cnames t) (ctypes t)))); ("data", JArr data)]%list.
Fixpoint table_json (k : nat) (h : heap) (p : ptr) (m : list (string * json)) : Prop :=
  match k with
  | O => False
  | S k' => exists data, m = members_json (tab h p) (map JArr data) /\
      Forall2 (row_json (table_json k' h) h (cnames (tab h p)) (ctypes (tab h p))) (rows (tab h p)) data
  end.

Lemma write_each_inv {A} (f : A -> list ptr -> res (string * list ptr)) : forall l seen ss seen',
  write_each f l seen = Ok (ss, seen') -> Forall2 (fun x s => exists s1 s2, f x s1 = Ok (s, s2)) l ss.
Proof.
  induction l as [|x l IH]; cbn [write_each]; intros seen ss seen' H.
  - inversion H; constructor.
  - destruct (f x seen) as [[s s1]| |] eqn:F; cbn [rbind] in H; try discriminate.
    destruct (write_each f l s1) as [[ss1 s2]| |] eqn:W; cbn [rbind] in H; try discriminate. inversion H; subst. constructor; [eauto|]. eapply IH; eauto.
Qed.
Lemma rmap_inv {A B} (f : A -> res B) : forall l ys, rmap f l = Ok ys -> Forall2 (fun x y => f x = Ok y) l ys.
Proof.
  induction l as [|x l IH]; cbn [rmap]; intros ys H; [inversion H; constructor|].
  destruct (f x) as [y| |] eqn:F; cbn [rbind] in H; try discriminate. destruct (rmap f l) as [ys'| |] eqn:W; cbn [rbind] in H; try discriminate.
  inversion H; subst. constructor; auto.
Qed.
Lemma Forall2_zseq {A B} (P : Z -> B -> Prop) (Q : A -> B -> Prop) (l : list A) (ys : list B) :
  Forall2 P (zseq (List.length l)) ys -> (forall i x y, nth_error l i = Some x -> P (Z.of_nat i) y -> Q x y) -> Forall2 Q l ys.
Proof.
  intros F H. pose proof (Forall2_len _ _ _ F) as L. rewrite zseq_length in L. apply Forall2_nth_iff; [exact L|]. intros i a b Na Nb.
  assert (I : i < List.length l) by (eapply nth_error_some_lt; eauto).
  assert (Z1 : nth_error (zseq (List.length l)) i = Some (Z.of_nat i)) by (rewrite nth_error_zseq; apply Nat.ltb_lt in I; now rewrite I).
  destruct (Forall2_nth _ _ _ _ _ F Z1) as (y & Y & P1). eapply H; eauto. congruence.
Qed.

Lemma spaces_to_commas_app a b : spaces_to_commas (a ++ b) = spaces_to_commas a ++ spaces_to_commas b.
Proof. induction a as [|c a IH]; [reflexivity|]. cbn [append spaces_to_commas]. now rewrite IH. Qed.
Lemma spaces_to_commas_id s : has " " s = false -> spaces_to_commas s = s.
Proof.
  induction s as [|c s IH]; [reflexivity|]. cbn [has spaces_to_commas]. intros H. apply orb_false_iff in H as [H1 H2].
  rewrite Ascii.eqb_sym, H1, IH by auto. reflexivity.
Qed.
Lemma slice_json o : spaces_to_commas (slice_text o) =
  "[" ++ String.concat "," (map (fun c => dec_of (code c)) (match o with Some l => l | None => [] end)) ++ "]".
Proof.
  unfold slice_text. set (l := match o with Some l => l | None => [] end). rewrite !spaces_to_commas_app. cbn [spaces_to_commas]. f_equal. f_equal.
  assert (D : forall c, spaces_to_commas (dec_of (code c)) = dec_of (code c)).
  { intros c. apply spaces_to_commas_id. destruct (dec_of_number (code c)) as (neg & a & -> & (A & _ & _) & _). unfold number. cbn [frac_text]. rewrite app_str_nil_r.
    pose proof (dec_has " " a eq_refl A) as X. destruct neg; cbn [sign_text has]; auto. }
  induction l as [|c l IH]; [reflexivity|]. destruct l as [|d l]; [cbn; apply D|].
  change (map (fun c => dec_of (code c)) (c :: d :: l)) with (dec_of (code c) :: dec_of (code d) :: map (fun c => dec_of (code c)) l).
  change (map (fun c => dec_of (code c)) (d :: l)) with (dec_of (code d) :: map (fun c => dec_of (code c)) l) in IH.
  change (String.concat " " (dec_of (code c) :: dec_of (code d) :: map (fun c => dec_of (code c)) l)) with
    (dec_of (code c) ++ String " " (String.concat " " (dec_of (code d) :: map (fun c => dec_of (code c)) l))).
  change (String.concat "," (dec_of (code c) :: dec_of (code d) :: map (fun c => dec_of (code c)) l)) with
    (dec_of (code c) ++ String "," (String.concat "," (dec_of (code d) :: map (fun c => dec_of (code c)) l))).
  rewrite spaces_to_commas_app, D. cbn [spaces_to_commas]. rewrite IH. reflexivity.
Qed.

Lemma reads_int z : reads 0 (dec_of z) (JNum (dec_of z)).
Proof. destruct (dec_of_number z) as (neg & a & -> & N & W). apply reads_number; auto. discriminate. Qed.
Lemma reads_float F f : fmt_ok F -> valid_binary (f_prec F) (f_emax F) f = true -> finite f -> reads 0 (format_short F f) (JNum (format_short F f)).
Proof. intros Fo V Fi. destruct (format_short_whole F f Fo V Fi) as (neg & a & p & b & -> & N & W & P). now apply reads_number. Qed.

Definition time_char (c : ascii) : bool := is_dec c || one_of "-:TZ+." c.
Lemma dec_n_chars n z : all_c time_char (dec_n n z) = true.
Proof.
  induction n as [|n IH] in z |- *; [reflexivity|]. cbn [dec_n all_c]. rewrite IH, andb_true_r.
  pose proof (Z.mod_pos_bound (z / 10 ^ Z.of_nat n) 10 ltac:(lia)) as B. destruct (digit_chr _ B) as [D _]. unfold time_char. now rewrite D.
Qed.
Lemma trim_zeros_chars f s : all_c f s = true -> all_c f (trim_zeros s) = true.
Proof.
  induction s as [|c s IH]; [reflexivity|]. cbn [all_c trim_zeros]. intros H. apply andb_true_iff in H as [H1 H2]. specialize (IH H2).
  destruct (trim_zeros s) as [|d u]; [destruct (Ascii.eqb c "0"); cbn; auto; now rewrite H1|]. cbn [all_c] in *. now rewrite H1.
Qed.
Lemma time_chars t : json_time t -> all_c time_char (time_text t) = true.
Proof.
  intros (Y & _ & _). unfold time_text, format_time. set (loc := (tm_sec t + tm_off t)%Z) in *. destruct (date_of (loc / 86400)) as [[y m] d] eqn:D.
  assert (y = year_of (loc / 86400)) by (unfold date_of in D; cbv zeta in D; destruct (month_of _ _ _) as [m0 d0]; exact (eq_sym (f_equal (fun x => fst (fst x)) D))). subst y. cbn zeta.
  unfold year_text. rewrite (proj2 (Z.ltb_ge (year_of (loc / 86400)) 0)), (proj2 (Z.ltb_ge 9999 (year_of (loc / 86400)))) by lia.
  rewrite !all_c_app, !dec_n_chars. cbn [all_c andb].
  replace (time_char "-") with true by reflexivity. replace (time_char "T") with true by reflexivity. replace (time_char ":") with true by reflexivity. cbn [andb].
  apply andb_true_iff. split.
  - destruct (_ && _)%bool; [|reflexivity]. cbn [append all_c]. replace (time_char ".") with true by reflexivity. apply trim_zeros_chars, dec_n_chars.
  - unfold zone_text. destruct (_ =? 0)%Z; [reflexivity|]. cbn zeta. cbn [all_c append]. rewrite !all_c_app. cbn [all_c]. rewrite !dec_n_chars. destruct (_ <? 0)%Z; reflexivity.
Qed.
Lemma time_plain_chars t ip : json_time t -> json_text ip (time_text t) /\ all_c plain_char (time_text t) = true.
Proof.
  intros J. apply time_chars in J.
  assert (A : forallb (fun n => let c := ascii_of_nat n in negb (time_char c) || (((32 <=? code c) && (code c <? 127))%Z && plain_char c)) (seq 0 256) = true) by (vm_compute; reflexivity).
  rewrite forallb_forall in A.
  assert (B : forall c, time_char c = true -> (((32 <=? code c) && (code c <? 127))%Z && plain_char c = true)).
  { intros c. pattern c. apply all_ascii. intros k L N. assert (I : In k (seq 0 256)) by (apply in_seq; lia). apply A in I. cbn zeta in I. rewrite N in I. exact I. }
  split; [apply ascii_text|]; eapply all_c_impl; try exact J; intros c C; apply B in C; apply andb_true_iff in C; tauto.
Qed.

Lemma type_plain ct ip : In ct all_types -> json_text ip ct /\ all_c plain_char ct = true.
Proof. intros I. types I; (split; [apply ascii_text; vm_compute; reflexivity|vm_compute; reflexivity]). Qed.

Lemma name_plain n : valid_name n -> all_c plain_char n = true.
Proof.
  assert (A : forallb (fun n => let c := ascii_of_nat n in negb (name_byte c) || plain_char c) (seq 0 256) = true) by (vm_compute; reflexivity).
  intros V. apply valid_name_bytes in V as [_ V]. eapply all_c_impl; [|exact V]. intros c. pattern c. apply all_ascii. intros k L N.
  rewrite forallb_forall in A. assert (I : In k (seq 0 256)) by (apply in_seq; lia). apply A in I. cbn zeta in I. rewrite N in I. exact I.
Qed.

(** The text of a cell *)
Lemma json_cell_value ip h write t ri ci seen s seen' ct cn v (T : ptr -> list (string * json) -> Prop) n :
  wf_table t -> is_nil t = false -> nth_error (cnames t) ci = Some cn -> nth_error (ctypes t) ci = Some ct -> at_cell t ci ri = Some v ->
  json_text ip cn -> json_value_ok ip ct v -> 1 <= n ->
  (forall q, v = VTable (Some q) -> is_nil (tab h q) = false -> forall s1 s s2, write q s1 = Ok (s, s2) -> exists m, T q m /\ reads n ("{" ++ s ++ "}") (JObj m)) ->
  json_cell ip h write t (Z.of_nat ri) (Z.of_nat ci) seen = Ok (s, seen') ->
  exists j, cell_json T h ct v j /\ reads (S n) s (JObj [(cn, j)]).
Proof.
  intros W NN Ncn Nct A Jn Jv Hn Nest H.
  assert (Hc : ci < List.length (cnames t)) by (eapply nth_error_some_lt; eauto).
  pose proof (at_cell_ok _ _ _ _ _ W A Nct) as [HT GV].
  unfold json_cell in H. rewrite !znth_of_nat, Ncn, Nct in H. cbn [rbind] in H.
  assert (G : GetValByColIndex t (Z.of_nat ci) (Z.of_nat ri) = Ok v).
  { rewrite get_at by auto. rewrite !Nat2Z.id, A. rewrite !(proj2 (Z.leb_le _ _)) by lia. reflexivity. }
  assert (TX : GetValAsStringByColIndex h t (Z.of_nat ci) (Z.of_nat ri) = match cell_text (fun s => s) encode h ct v with Some r => r | None => Err end).
  { unfold GetValAsStringByColIndex. rewrite NN, G, znth_of_nat, Nct. reflexivity. }
  rewrite TX, G in H. cbn [rbind] in H. clear TX.
  assert (Step : forall x j, cell_json T h ct v j -> reads n x j -> s = "{" ++ Quote ip cn ++ ":" ++ x ++ "}" -> exists j, cell_json T h ct v j /\ reads (S n) s (JObj [(cn, j)])).
  { intros x j C R ->. exists j. split; [exact C|]. destruct (Quote_text ip cn Jn) as (body & Q & ST).
    pose proof (reads_object n [mkMember (Quote ip cn) cn x j]) as O. cbn [map String.concat members_of fold_left mb_key mb_value jput] in O.
    unfold member_text in O. cbn [mb_key_text mb_text] in O. rewrite !app_str_assoc in O. apply O.
    constructor; [|constructor]. split; [exists body; auto|exact R]. }
  assert (R0 : forall x j, reads 0 x j -> reads n x j) by (intros; eapply reads_le; [|eassumption]; lia).
  destruct v as [| b|str|k z|f|f|o|[q|]|tm|g]; try contradiction.
  - cbn [has_type] in HT. subst ct. cbn in H. apply (Step (if b then "true" else "false") (JBool b)); [reflexivity|apply R0, reads_bool|inversion H; reflexivity].
  - cbn [rbind] in H. apply (Step (Quote ip str) (JStr str)); [reflexivity|apply R0, reads_Quote; exact Jv |inversion H; reflexivity].
  - assert (K : (exists x j, cell_json T h ct (VInt k z) j /\ reads 0 x j /\ s = "{" ++ Quote ip cn ++ ":" ++ x ++ "}")).
    { cbn [json_value_ok cell_json] in *. destruct k; cbn [has_type] in HT; (try destruct HT as [HT|HT]); subst ct; cbn in H, Jv; inversion H;
       (first [ now (eexists (dec_of z), (JNum (dec_of z)); split; [reflexivity|]; split; [apply reads_int|])
              | eexists (Quote ip (encode z)), (JStr (encode z)); split; [reflexivity|]; split; [apply reads_Quote; exists [z]; split; [auto|reflexivity]|reflexivity]]). }
    destruct K as (x & j & C & R & E). eapply Step; eauto.
  - cbn [has_type] in HT. subst ct. cbn [cell_text] in H. cbn in H, Jv. destruct Jv as [Jf _].
    apply (Step (format_short F32 f) (JNum (format_short F32 f))); [reflexivity|apply R0, (reads_float F32 f); [now left|exact GV|exact Jf]|inversion H; reflexivity].
  - cbn [has_type] in HT. subst ct. cbn [cell_text] in H. cbn in H, Jv.
    apply (Step (format_short F64 f) (JNum (format_short F64 f))); [reflexivity|apply R0, (reads_float F64 f); [now right|exact GV|exact Jv]|inversion H; reflexivity].
  - assert (K : s = "{" ++ Quote ip cn ++ ":" ++ spaces_to_commas (slice_text o) ++ "}").
    { cbn [has_type] in HT. destruct HT; subst ct; cbn [cell_text int_kind bytes_of rbind] in H; cbn in H; inversion H; reflexivity. }
    apply (Step (spaces_to_commas (slice_text o)) (JArr (map (fun c => JNum (dec_of (code c))) (match o with Some l => l | None => [] end)))); [reflexivity| |exact K].
    rewrite slice_json. eapply reads_le; [exact Hn|]. apply reads_array. clear. induction (match o with Some l => l | None => [] end); constructor; auto. apply reads_int.
  - assert (GT : GetTableByColIndex t (Z.of_nat ci) (Z.of_nat ri) = Ok (Some q)).
    { cbn [has_type] in HT. subst ct. unfold GetTableByColIndex.
      destruct (GetTByColIndex_eq "*Table" t (Z.of_nat ci) (Z.of_nat ri) W ltac:(now apply str_in_In)) as [(_ & _ & _ & _ & _ & E & _)|[No _]].
      - rewrite E, G. reflexivity.
      - elim No. exists "*Table". rewrite Nat2Z.id. apply at_cell_range in A; [|exact W]. unfold ColCount, RowCount. repeat split; auto; try lia. now left. }
    rewrite GT in H. cbn [rbind] in H. destruct (in_set q seen); [discriminate|]. destruct (is_nil (tab h q)) eqn:Nq.
    + cbn [rbind] in H. apply (Step "null" JNull); [left; auto|apply R0, reads_null|inversion H; reflexivity].
    + destruct (write q seen) as [[u s2]| |] eqn:Wq; try discriminate. cbn [rbind] in H.
      destruct (Nest q eq_refl Nq _ _ _ Wq) as (m & Tm & Rm). apply (Step ("{" ++ u ++ "}") (JObj m)); [right; eauto|exact Rm|inversion H; reflexivity].
  - cbn [rbind] in H. destruct (time_plain_chars tm ip Jv) as [J P]. apply (Step (in_quotes (time_text tm)) (JStr (time_text tm))); [reflexivity|apply R0; eapply reads_raw; eauto|inversion H; reflexivity].
Qed.

Lemma row_json_build T h : forall ns cts vs js, List.length ns = List.length cts -> List.length cts = List.length vs -> List.length vs = List.length js ->
  (forall i n ct v, nth_error ns i = Some n -> nth_error cts i = Some ct -> nth_error vs i = Some v ->
     exists j, nth_error js i = Some (JObj [(n, j)]) /\ cell_json T h ct v j) ->
  row_json T h ns cts vs js.
Proof.
  induction ns as [|n ns IH]; intros [|ct cts] [|v vs] [|j js] L1 L2 L3 H; try discriminate; [constructor|].
  destruct (H 0 n ct v eq_refl eq_refl eq_refl) as (x & E & C). cbn in E. inversion E; subst. constructor; [exact C|].
  apply IH; [now inversion L1|now inversion L2|now inversion L3|]. intros i n' ct' v' A B D. exact (H (S i) n' ct' v' A B D).
Qed.

Lemma choose_list {A B C} (P : A -> B -> Prop) (Q : A -> C -> Prop) (R : B -> C -> Prop) la lb :
  Forall2 P la lb -> (forall a b, In a la -> P a b -> exists c, Q a c /\ R b c) -> exists lc, Forall2 Q la lc /\ Forall2 R lb lc.
Proof.
  induction 1 as [|a b la lb H F IH]; intros S; [exists []; split; constructor|].
  destruct (S a b (or_introl eq_refl) H) as (c & Qc & Rc). destruct IH as (lc & F1 & F2); [intros; apply S; [now right|auto]|].
  exists (c :: lc). split; constructor; auto.
Qed.

Lemma nests_cell h p t r c q : nth_error h p = Some t -> at_cell t c r = Some (VTable (Some q)) -> nests h p q.
Proof.
  intros N A. exists t. split; [exact N|]. unfold at_cell in A. destruct (nth_error (rows t) r) as [row|] eqn:E; [|discriminate].
  unfold nested_in. apply in_flat_map. exists row. split; [eapply nth_error_In; eauto|]. apply in_flat_map. exists (VTable (Some q)).
  split; [eapply nth_error_In; eauto|left; reflexivity].
Qed.

Theorem table_text ip h : wf_heap h -> forall k fuel p seen s seen', depth_at_most k h p -> p < List.length h -> is_nil (tab h p) = false ->
  json_table ip h p -> getTableAsJSON_recursive fuel ip h p seen = Ok (s, seen') ->
  exists m, table_json k h p m /\ reads (4 * k + 1) ("{" ++ s ++ "}") (JObj m).
Proof.
  intros WH. induction k as [|k IH]; intros fuel p seen s seen' Dp Hp NN JT H; [contradiction|].
  destruct fuel as [|fuel]; [discriminate|]. cbn [getTableAsJSON_recursive] in H. set (t := tab h p) in *.
  destruct (tab_wf h p WH) as [W _]. fold t in W.
  assert (Np : nth_error h p = Some t) by (unfold t, tab; destruct (nth_error h p) eqn:X; [erewrite nth_error_nth by exact X; reflexivity|apply nth_error_None in X; unfold ptr in *; lia]).
  destruct (JT p (rt_refl _ _ _) NN) as (JN & JC & JV). fold t in JN, JC, JV.
  destruct (rmap _ _) as [meta| |] eqn:M; cbn [rbind] in H; try discriminate.
  destruct (write_each _ _ (p :: seen)) as [[data sn]| |] eqn:D; cbn [rbind] in H; try discriminate.
  apply rmap_inv in M. apply write_each_inv in D.
  (* the rows *)
  assert (RD : exists data', Forall2 (row_json (table_json k h) h (cnames t) (ctypes t)) (rows t) data' /\ Forall2 (reads (4 * k + 3)) data (map JArr data')).
  { apply (Forall2_zseq _ (fun row txt => exists js, row_json (table_json k h) h (cnames t) (ctypes t) row js /\ reads (4 * k + 3) txt (JArr js))) in D.
    - destruct (choose_list _ (row_json (table_json k h) h (cnames t) (ctypes t)) (fun txt js => reads (4 * k + 3) txt (JArr js)) _ _ D) as (lc & F1 & F2).
      + intros row txt _ (js & A & B). exists js. auto.
      + exists lc. split; [exact F1|]. clear - F2. induction F2; constructor; auto.
    - intros ri row txt Nr (s1 & s2 & E). destruct (write_each _ _ s1) as [[cells s3]| |] eqn:C; cbn [rbind] in E; try discriminate.
      inversion E; subst txt s2. clear E. apply write_each_inv in C.
      assert (LR : List.length row = List.length (cnames t)) by (eapply wf_row_len; eauto).
      assert (Q : exists js, Forall2 (fun ci j => forall i n ct v, ci = Z.of_nat i -> nth_error (cnames t) i = Some n -> nth_error (ctypes t) i = Some ct -> nth_error row i = Some v ->
                   exists x, j = JObj [(n, x)] /\ cell_json (table_json k h) h ct v x) (zseq (List.length (cnames t))) js /\ Forall2 (reads (4 * k + 2)) cells js).
      { apply (choose_list _ _ _ _ _ C). intros ci txt Ici (s4 & s5 & E). apply In_zseq in Ici.
        assert (exists i, ci = Z.of_nat i) as (i & Ei) by (exists (Z.to_nat ci); lia). rewrite Ei in E.
        assert (Hi : i < List.length (cnames t)) by lia.
        destruct (wf_at_cell t i ri W Hi) as (ct & v & Tct & _ & A & _); [eapply nth_error_some_lt; eauto|].
        destruct (nth_error (cnames t) i) as [n|] eqn:Nn; [|apply nth_error_None in Nn; lia].
        pose proof (Forall_nth_error _ _ _ _ JC Nn) as Jn. pose proof (Forall_nth_error _ _ _ _ JV Nr) as JR.
        assert (Nv : nth_error row i = Some v) by (unfold at_cell in A; now rewrite Nr in A).
        destruct (Forall2_nth _ _ _ _ _ JR Tct) as (v' & Nv' & Jv). assert (v' = v) by congruence. subst v'.
        edestruct (json_cell_value ip h (getTableAsJSON_recursive fuel ip h) t ri i s4 txt s5 ct n v (table_json k h) (4 * k + 1) W NN Nn Tct A Jn Jv) as (j & CJ & RJ); [lia| |exact E|].
        - intros q -> Nq s6 s7 s8 Wq. assert (NQ : nests h p q) by (eapply nests_cell; eauto).
          eapply (IH fuel q); eauto.
          + destruct NQ as (t0 & N0 & I0). eapply (wh_nested _ WH); eauto.
          + intros q' Rq Nq'. apply JT; [|exact Nq']. eapply rt_trans; [apply rt_step; exact NQ|exact Rq].
        - exists (JObj [(n, j)]). split; [|replace (4 * k + 2) with (S (4 * k + 1)) by lia; exact RJ].
          intros i' n' ct' v' E' A1 A2 A3. assert (i' = i) by lia. subst i'. exists j. assert (n' = n) by congruence. assert (ct' = ct) by congruence. assert (v' = v) by congruence. subst n' ct' v'. auto. }
      destruct Q as (js & Q & RC). exists js. split.
      + apply row_json_build; [symmetry; apply (wf_types_len _ W)|rewrite (wf_types_len _ W); auto| |].
        * rewrite LR. apply Forall2_len in Q. now rewrite zseq_length in Q.
        * intros i n ct v A1 A2 A3. assert (Hi : i < List.length (cnames t)) by (eapply nth_error_some_lt; eauto).
          assert (Z1 : nth_error (zseq (List.length (cnames t))) i = Some (Z.of_nat i)) by (rewrite nth_error_zseq; apply Nat.ltb_lt in Hi; now rewrite Hi).
          destruct (Forall2_nth _ _ _ _ _ Q Z1) as (j & Nj & X). destruct (X i n ct v eq_refl A1 A2 A3) as (x & -> & CJ). exists x. auto.
      + replace (4 * k + 3) with (S (4 * k + 2)) by lia. apply reads_array. exact RC. }
  destruct RD as (data' & RJ & RD).
  (* the metadata *)
  assert (RM : Forall2 (reads 1) meta (map (fun c => JObj [(fst c, JStr (snd c))]) (combine (cnames t) (ctypes t)))).
  { pose proof (Forall2_len _ _ _ M) as LM. rewrite zseq_length in LM. apply Forall2_nth_iff.
    - rewrite map_length, combine_length, (wf_types_len _ W), Nat.min_id. now symmetry.
    - intros i txt j Ni Nj. rewrite nth_error_map in Nj. destruct (nth_error (combine (cnames t) (ctypes t)) i) as [[cn ct]|] eqn:NC; [|discriminate].
      cbn in Nj. inversion Nj; subst j. rewrite nth_error_combine in NC. destruct (nth_error (cnames t) i) as [cn'|] eqn:N1; [|discriminate].
      destruct (nth_error (ctypes t) i) as [ct'|] eqn:N2; [|discriminate]. inversion NC; subst cn' ct'.
      assert (Hi : i < List.length (cnames t)) by (eapply nth_error_some_lt; eauto).
      assert (Z1 : nth_error (zseq (List.length (cnames t))) i = Some (Z.of_nat i)) by (rewrite nth_error_zseq; apply Nat.ltb_lt in Hi; now rewrite Hi).
      destruct (Forall2_nth _ _ _ _ _ M Z1) as (y & Ny & Y). assert (y = txt) by congruence. subst y. rewrite !znth_of_nat, N1, N2 in Y. inversion Y; subst txt.
      pose proof (Forall_nth_error _ _ _ _ JC N1) as Jn. pose proof (Forall_nth_error _ _ _ _ (wf_colnames _ W) N1) as Vn.
      pose proof (Forall_nth_error _ _ _ _ (wf_types _ W) N2) as It. destruct (type_plain ct ip It) as [Jt Pt].
      destruct (raw_text ip cn Jn (name_plain cn Vn)) as (body & B & ST).
      pose proof (reads_object 0 [mkMember (in_quotes cn) cn (in_quotes ct) (JStr ct)]) as O. cbn [map String.concat members_of fold_left mb_key mb_value jput] in O.
      unfold member_text in O. cbn [mb_key_text mb_text] in O. rewrite !app_str_assoc in O. apply O.
      constructor; [|constructor]. split; [exists body; auto|]. eapply reads_raw; eauto. }
  exists (members_json t (map JArr data')). split; [exists data'; split; [reflexivity|exact RJ]|].
  assert (KT : forall key, all_c (fun c => ((32 <=? code c) && (code c <? 127))%Z) key = true -> all_c plain_char key = true -> exists body, in_quotes key = String dquote body /\ string_text body key).
  { intros key A B. eapply raw_text; [apply ascii_text with (ip := ip); exact A|exact B]. }
  set (ms := (mkMember (in_quotes "tableName") "tableName" (Quote ip (tname t)) (JStr (tname t)) ::
       (if struct_shape t then [mkMember (in_quotes "isStructShape") "isStructShape" "true" (JBool true)] else []) ++
       [mkMember (in_quotes "metadata") "metadata" ("[" ++ String.concat "," meta ++ "]") (JArr (map (fun c => JObj [(fst c, JStr (snd c))]) (combine (cnames t) (ctypes t))));
        mkMember (in_quotes "data") "data" ("[" ++ String.concat "," data ++ "]") (JArr (map JArr data'))])%list).
  assert (MS : Forall (member_ok (4 * S k)) ms).
  { assert (B1 : member_ok (4 * S k) (mkMember (in_quotes "tableName") "tableName" (Quote ip (tname t)) (JStr (tname t)))).
    { split; [apply KT; reflexivity|]. eapply reads_le; [|apply reads_Quote; exact JN]. lia. }
    assert (B2 : member_ok (4 * S k) (mkMember (in_quotes "isStructShape") "isStructShape" "true" (JBool true))).
    { split; [apply KT; reflexivity|]. eapply reads_le; [|apply (reads_bool true)]. lia. }
    assert (B3 : member_ok (4 * S k) (mkMember (in_quotes "metadata") "metadata" ("[" ++ String.concat "," meta ++ "]") (JArr (map (fun c => JObj [(fst c, JStr (snd c))]) (combine (cnames t) (ctypes t)))))).
    { split; [apply KT; reflexivity|]. eapply reads_le; [|apply reads_array; exact RM]. lia. }
    assert (B4 : member_ok (4 * S k) (mkMember (in_quotes "data") "data" ("[" ++ String.concat "," data ++ "]") (JArr (map JArr data')))).
    { split; [apply KT; reflexivity|]. eapply reads_le; [|apply reads_array; exact RD]. lia. }
    unfold ms. destruct (struct_shape t); repeat (constructor; auto). }
  pose proof (reads_object _ _ MS) as R. replace (4 * S k + 1) with (S (4 * S k)) by lia.
  assert (EM : members_of ms [] = members_json t (map JArr data')) by (unfold ms, members_json; destruct (struct_shape t); reflexivity).
  rewrite EM in R. assert (ES : String.concat "," (map member_text ms) = s); [|now rewrite <- ES].
  apply (f_equal (fun r => match r with Ok x => fst x | _ => "" end)) in H. cbv beta iota in H. cbn [fst] in H. rewrite <- H. unfold ms.
  destruct (struct_shape t); cbn [map app String.concat]; unfold member_text; cbn [mb_key_text mb_text]; rewrite !app_str_assoc; reflexivity.
Qed.
