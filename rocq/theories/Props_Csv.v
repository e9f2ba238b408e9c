(** Props_Csv.v -- C31: the CSV text of a table. *)
From Coq Require Import ZArith NArith List String Ascii Bool SpecFloat Lia.
From Verif Require Import Base Model_Names Model_Table Model_Sort Model_Ops Model_Heap Model_Lex Model_Float Model_Print Model_Csv
  Spec Spec_Sort Spec_Heap Spec_Text Spec_Csv
  Proofs_Lib Proofs_Table Proofs_Cells Proofs_Struct Proofs_Api Proofs_Api2 Proofs_Copy Proofs_Env Proofs_Heap Props_Heap Proofs_Walk Proofs_Lex Proofs_Num Proofs_Float Proofs_FloatText.
Import ListNotations.
Local Open Scope string_scope.
Local Open Scope list_scope.

(** ---------- fields ---------- *)

Lemma is_eqb n c d : n = nat_of_ascii d -> is n c = Ascii.eqb c d.
Proof.
  intros ->. unfold is. destruct (Ascii.eqb_spec c d) as [->|N]; [apply Nat.eqb_refl|].
  apply Nat.eqb_neq. intros X. apply N. rewrite <- (ascii_nat_embedding c), <- (ascii_nat_embedding d). congruence.
Qed.
Lemma is34 c : is 34 c = Ascii.eqb c dquote. Proof. now apply is_eqb. Qed.
Lemma is44 c : is 44 c = Ascii.eqb c comma. Proof. now apply is_eqb. Qed.
Lemma is10 c : is 10 c = Ascii.eqb c nl. Proof. now apply is_eqb. Qed.

Definition ends (d : ascii) : Prop := d = comma \/ d = nl.
(** After the field f, the separator d *)
Definition after (d : ascii) (f : string) (rec : list string) (r : string) : option (list (list string)) :=
  if Ascii.eqb d comma then csv_read AtStart "" (rec ++ [f]) r else option_map (cons (rec ++ [f])) (csv_read AtStart "" [] r).

Lemma add_app f c r : (add f c ++ r = f ++ String c r)%string.
Proof. unfold add. rewrite app_str_assoc. reflexivity. Qed.

Lemma read_end at_ f rec d r : ends d -> at_ <> InQuotes -> csv_read at_ f rec (String d r) = after d f rec r.
Proof. intros [-> | ->] N; destruct at_; try contradiction; reflexivity. Qed.

Definition plain (c : ascii) : bool := negb (Ascii.eqb c nl || Ascii.eqb c (chr 13) || Ascii.eqb c dquote || Ascii.eqb c comma).
Lemma plain_step at_ f rec c r : plain c = true -> at_ = AtStart \/ at_ = InPlain ->
  csv_read at_ f rec (String c r) = csv_read InPlain (add f c) rec r.
Proof.
  intros P A. unfold plain in P. apply negb_true_iff in P. apply orb_false_elim in P as [P P4]. apply orb_false_elim in P as [P P3].
  apply orb_false_elim in P as [P1 P2]. cbn [csv_read]. rewrite is34, is44, is10, P3, P4, P1. destruct A as [-> | ->]; reflexivity.
Qed.

Lemma read_plain d rec r : ends d -> forall g f at_, (at_ = AtStart \/ at_ = InPlain) -> forallb plain (list_ascii_of_string g) = true ->
  csv_read at_ f rec (g ++ String d r)%string = after d (f ++ g)%string rec r.
Proof.
  intros D. induction g as [|c g IH]; intros f at_ A P.
  - rewrite app_str_nil_r. apply read_end; auto. intros ->. destruct A; discriminate.
  - cbn [list_ascii_of_string forallb] in P. apply andb_prop in P as [P1 P2].
    change ((String c g ++ String d r)%string) with (String c (g ++ String d r)%string).
    rewrite plain_step by auto. rewrite IH by auto. rewrite add_app. reflexivity.
Qed.

Lemma read_quoted d rec r : ends d -> forall g f,
  csv_read InQuotes f rec (doubled g ++ String dquote (String d r))%string = after d (f ++ g)%string rec r.
Proof.
  intros D. induction g as [|c g IH]; intros f.
  - rewrite app_str_nil_r. cbn [doubled append]. cbn [csv_read]. rewrite is34, Ascii.eqb_refl. apply (read_end AfterQuote); [exact D|discriminate].
  - cbn [doubled]. destruct (Ascii.eqb_spec c dquote) as [->|N].
    + cbn [append]. cbn [csv_read]. rewrite is34, Ascii.eqb_refl. rewrite IH, add_app. reflexivity.
    + cbn [append]. cbn [csv_read]. rewrite is34. apply Ascii.eqb_neq in N. rewrite N, IH, add_app. reflexivity.
Qed.

Lemma read_field d rec r f : ends d -> csv_read AtStart "" rec (csv_field f ++ String d r)%string = after d f rec r.
Proof.
  intros D. unfold csv_field. destruct (fieldNeedsQuotes f) eqn:Q.
  - cbn [append]. cbn [csv_read]. rewrite is34, Ascii.eqb_refl. rewrite app_str_assoc. cbn [append]. now apply read_quoted.
  - apply read_plain; auto. unfold fieldNeedsQuotes in Q. destruct (f =? "") eqn:F; [apply String.eqb_eq in F; subst; reflexivity|].
    destruct (f =? String bslash "."); [discriminate|]. apply orb_false_elim in Q as [Q _].
    apply forallb_forall. intros c I. unfold plain. apply negb_true_iff.
    destruct (_ || _) eqn:X at 1; [|reflexivity]. exfalso.
    assert (Y : existsb (fun c => Ascii.eqb c nl || Ascii.eqb c (chr 13) || Ascii.eqb c dquote || Ascii.eqb c comma) (list_ascii_of_string f) = true)
      by (apply existsb_exists; exists c; split; assumption). congruence.
Qed.

Lemma read_record fs : fs <> [] -> forall rec r,
  csv_read AtStart "" rec (csv_record fs ++ r)%string = option_map (cons (rec ++ fs)) (csv_records r).
Proof.
  intros NE. unfold csv_record. induction fs as [|f fs IH]; [congruence|]. intros rec r. destruct fs as [|g fs].
  - cbn [map String.concat]. rewrite app_str_assoc. unfold newline. cbn [append]. rewrite read_field by (right; reflexivity). reflexivity.
  - change (String.concat (String comma "") (map csv_field (f :: g :: fs)))
      with (csv_field f ++ (String comma "" ++ String.concat (String comma "") (map csv_field (g :: fs))))%string.
    rewrite !app_str_assoc. change ((String comma "" ++ ?x)%string) with (String comma x).
    rewrite read_field by (left; reflexivity). unfold after. rewrite Ascii.eqb_refl.
    rewrite <- app_str_assoc, IH by discriminate. rewrite <- app_assoc. reflexivity.
Qed.

(** ---------- cells ---------- *)

Lemma rmap_ok {A B} (f : A -> res B) (P : A -> B -> Prop) l : (forall x, In x l -> exists y, f x = Ok y /\ P x y) ->
  exists l', rmap f l = Ok l' /\ Forall2 P l l'.
Proof.
  induction l as [|x l IH]; intros H.
  - exists []. split; [reflexivity|constructor].
  - destruct (H x (or_introl eq_refl)) as (y & Y & PY). destruct IH as (l' & L & F); [intros; apply H; now right|].
    exists (y :: l'). cbn [rmap]. rewrite Y. cbn [rbind]. rewrite L. split; [reflexivity|]. constructor; assumption.
Qed.

Lemma cell_text_ok h ct v : In ct all_types -> cell_ok ct v -> exists s, cell_text (fun s => s) encode h ct v = Some (Ok s).
Proof.
  intros I [T _]. destruct v as [| | |k z| | | |[p|]| |]; cbn in T; try contradiction; try (subst ct; eexists; reflexivity).
  - destruct k; try (subst ct; eexists; reflexivity); destruct T as [-> | ->]; eexists; reflexivity.
  - destruct T as [-> | ->]; eexists; reflexivity.
Qed.

(** The text of a float is NaN only for NaN. *)
Lemma short_nan F f : fmt_ok F -> valid_binary (f_prec F) (f_emax F) f = true -> (format_short F f =? "NaN") = true <-> f = S754_nan.
Proof.
  intros FO V. split; [|intros ->; reflexivity]. intros X. destruct f as [s|s| |s m e]; try reflexivity.
  - destruct s; discriminate X.
  - destruct s; discriminate X.
  - destruct (format_short_number F (S754_finite s m e) FO V) as (neg & a & p & b & N & D); [exact I|discriminate|].
    destruct D as [D _]. rewrite N, (number_not_nan _ _ _ _ D) in X. discriminate.
Qed.

Lemma csv_cell_ok h t r c : wf_table t -> is_nil t = false -> (0 <= c < ColCount t)%Z -> (0 <= r < RowCount t)%Z ->
  exists s, csv_cell h t r c = Ok s /\ csv_form h t r c s.
Proof.
  intros W NN C R. destruct (wf_type_at _ W (Z.to_nat c)) as (ct & T & Hct); [unfold ColCount in C; lia|].
  destruct (nth_error (rows t) (Z.to_nat r)) as [row|] eqn:RO; [|apply nth_error_None in RO; unfold RowCount in R; lia].
  pose proof (Forall_nth_error _ _ _ _ (wf_cells _ W) RO) as FC. destruct (Forall2_nth _ _ _ _ _ FC T) as (v & V & CO).
  assert (G : GetValByColIndex t c r = Ok v).
  { replace c with (Z.of_nat (Z.to_nat c)) by lia. replace r with (Z.of_nat (Z.to_nat r)) by lia. rewrite get_at_nat by exact W.
    unfold at_cell. rewrite RO, V. reflexivity. }
  assert (ZT : znth (ctypes t) c = Some ct) by (apply znth_some; split; [lia|exact T]).
  destruct (cell_text_ok h ct v Hct CO) as (x & X).
  assert (GS : GetValAsStringByColIndex h t c r = Ok x).
  { unfold GetValAsStringByColIndex. rewrite NN, G. cbn [rbind]. rewrite ZT, X. reflexivity. }
  unfold csv_cell. rewrite GS. cbn [rbind]. rewrite ZT. eexists. split; [reflexivity|]. exists v, x. split; [exact G|]. split; [exact GS|].
  destruct CO as [HT GV].
  assert (K : (is_float_type ct && (x =? "NaN")) = true <-> is_nan v).
  { destruct v as [| | |k z|f|f| |[p|]| |]; cbn in HT; try contradiction; try subst ct;
      try (split; [discriminate|intros [Q|Q]; discriminate Q]).
    - destruct k; (try (subst ct; split; [discriminate|intros [Q|Q]; discriminate Q]));
        destruct HT as [-> | ->]; (split; [discriminate|intros [Q|Q]; discriminate Q]).
    - cbn in X. injection X as <-. change (is_float_type "float32" && ?b) with b. rewrite (short_nan F32); [|left; reflexivity|exact GV].
      unfold is_nan. split; [intros ->; left; reflexivity|]. intros [Q|Q]; [congruence|discriminate].
    - cbn in X. injection X as <-. change (is_float_type "float64" && ?b) with b. rewrite (short_nan F64); [|right; reflexivity|exact GV].
      unfold is_nan. split; [intros ->; right; reflexivity|]. intros [Q|Q]; [discriminate|congruence].
    - destruct HT as [-> | ->]; (split; [discriminate|intros [Q|Q]; discriminate Q]). }
  destruct (is_float_type ct && (x =? "NaN")).
  - split; [reflexivity|]. intros N. exfalso. apply N, K. reflexivity.
  - split; [|reflexivity]. intros N. apply K in N. discriminate.
Qed.

Lemma csv_rows_ok h t : wf_table t -> is_nil t = false -> cnames t <> [] -> forall ris, Forall (fun r => 0 <= r < RowCount t)%Z ris ->
  exists text recs, csv_rows h t ris = Ok text /\ csv_records text = Some recs
    /\ Forall2 (fun r rec => Forall2 (csv_form h t r) (zseq (List.length (cnames t))) rec) ris recs.
Proof.
  intros W NN NE. induction ris as [|r ris IH]; intros F.
  - exists "", []. repeat split. constructor.
  - inversion F as [|? ? F1 F2]; subst. destruct (IH F2) as (text & recs & X & RD & FF).
    destruct (rmap_ok (csv_cell h t r) (csv_form h t r) (zseq (List.length (cnames t)))) as (fs & Y & FS).
    { intros c I. apply In_zseq in I.
      apply csv_cell_ok; auto. }
    exists (csv_record fs ++ text)%string, (fs :: recs). cbn [csv_rows]. rewrite Y. cbn [rbind]. rewrite X. split; [reflexivity|]. split.
    + unfold csv_records. rewrite read_record, RD; [reflexivity|]. intros ->. inversion FS as [Z|]. 
      destruct (cnames t); [congruence|discriminate].
    + constructor; assumption.
Qed.

Theorem C31_csv : forall E h (p : ptr) t subs, env_ok E -> reachable E h -> nth_error h p = Some t -> is_nil t = false ->
  (0 < ColCount t)%Z -> subs = [] \/ Z.of_nat (List.length subs) = ColCount t ->
  exists text headings recs, GetTableAsCSV h t subs = Ok text
    /\ csv_records text = Some (headings :: recs)
    /\ Z.of_nat (List.length recs) = RowCount t
    /\ Z.of_nat (List.length headings) = ColCount t
    /\ (forall c s, nth_error headings c = Some s -> csv_heading t subs (Z.of_nat c) s)
    /\ (forall r rec, nth_error recs r = Some rec -> Z.of_nat (List.length rec) = ColCount t
          /\ forall c s, nth_error rec c = Some s -> csv_form h t (Z.of_nat r) (Z.of_nat c) s).
Proof.
  intros E h p t subs EO R N NN C S. assert (W : wf_table t). { destruct (reachable_wf E h EO R) as [F _]. eapply Forall_nth_error; eauto. }
  assert (NE : cnames t <> []) by (unfold ColCount in C; destruct (cnames t); [cbn in C; lia|discriminate]).
  destruct (csv_rows_ok h t W NN NE (zseq (List.length (rows t)))) as (text & recs & X & RD & F).
  { apply Forall_forall. intros r I. apply In_zseq in I. unfold RowCount. lia. }
  assert (HD : exists hs, csv_headings t subs = Ok hs /\ List.length hs = List.length (cnames t)
    /\ forall c s, nth_error hs c = Some s -> csv_heading t subs (Z.of_nat c) s).
  { unfold csv_headings. destruct subs as [|x xs].
    - exists (cnames t). split; [reflexivity|]. split; [reflexivity|]. intros c s I. unfold csv_heading.
      replace (znth (@nil string) (Z.of_nat c)) with (@None string) by (rewrite znth_of_nat; destruct c; reflexivity).
      rewrite ColName_eq. replace (HasColByColIndex t (Z.of_nat c)) with true.
      { rewrite Nat2Z.id, (nth_error_nth _ _ "" I). reflexivity. }
      symmetry. apply HasCol_iff. apply nth_error_some_lt in I. unfold ColCount. lia.
    - destruct S as [S|S]; [discriminate|]. set (sb := x :: xs) in *. change (Nat.ltb 0 (List.length sb)) with true. cbn match.
      rewrite S, Z.eqb_refl.
      destruct (rmap_ok (fun p : Z * string => if Nat.ltb 0 (String.length (snd p)) then Ok (snd p) else ColName t (fst p))
        (fun p s => csv_heading t sb (fst p) s) (combine (zseq (List.length sb)) sb)) as (hs & H1 & H2).
      + intros [c y] I. cbn [fst snd]. apply In_nth_error in I as [k I].
        assert (Y : c = Z.of_nat k /\ nth_error sb k = Some y).
        { rewrite nth_error_combine, nth_error_zseq in I.
          destruct (Nat.ltb k (List.length sb)); [|discriminate]. destruct (nth_error sb k); [|discriminate]. injection I as <- ->. auto. }
        destruct Y as [-> Y]. unfold csv_heading. rewrite znth_of_nat, Y.
        destruct y as [|a y]; cbn [String.length Nat.ltb Nat.leb].
        * change ("" =? "") with true. cbn match. rewrite ColName_eq. replace (HasColByColIndex t (Z.of_nat k)) with true; [eexists; split; reflexivity|].
          symmetry. apply HasCol_iff. apply nth_error_some_lt in Y. unfold ColCount in *. lia.
        * exists (String a y). split; reflexivity.
      + exists hs. split; [exact H1|]. pose proof (Forall2_len _ _ _ H2) as L. rewrite combine_length in L. rewrite zseq_length, Nat.min_id in L.
        split; [unfold ColCount in S; lia|]. intros c s I. destruct (Forall2_nth_r _ _ _ _ _ H2 I) as ([z y] & Z & CH).
        rewrite nth_error_combine, nth_error_zseq in Z.
        destruct (Nat.ltb c (List.length sb)); [|discriminate]. destruct (nth_error sb c); [|discriminate]. injection Z as <- ->. exact CH. }
  destruct HD as (hs & H1 & H2 & H3). exists (csv_record hs ++ text)%string, hs, recs.
  split. { unfold GetTableAsCSV. rewrite NN, H1. cbn [rbind]. rewrite X. reflexivity. }
  split. { unfold csv_records. rewrite read_record, RD; [reflexivity|]. intros ->. destruct (cnames t); [congruence|discriminate]. }
  pose proof (Forall2_len _ _ _ F) as L. rewrite zseq_length in L.
  split; [unfold RowCount; lia|]. split; [unfold ColCount; lia|]. split; [exact H3|].
  intros r rec I. destruct (Forall2_nth_r _ _ _ _ _ F I) as (z & Z & FR).
  rewrite nth_error_zseq in Z. destruct (Nat.ltb r (List.length (rows t))); [|discriminate]. cbn in Z. injection Z as <-.
  pose proof (Forall2_len _ _ _ FR) as L2. rewrite zseq_length in L2. split; [unfold ColCount; lia|].
  intros c s J. destruct (Forall2_nth_r _ _ _ _ _ FR J) as (z & Z & CF).
  rewrite nth_error_zseq in Z. destruct (Nat.ltb c (List.length (cnames t))); [|discriminate]. cbn in Z. injection Z as <-. exact CF.
Qed.

(** The calls that fail: a NilTable, and a wrong number of headings. *)
Theorem C31_errors : forall h t subs,
  (is_nil t = true -> GetTableAsCSV h t subs = Err)
  /\ (subs <> [] -> Z.of_nat (List.length subs) <> ColCount t -> GetTableAsCSV h t subs = Err).
Proof.
  intros h t subs. split.
  - intros N. unfold GetTableAsCSV. now rewrite N.
  - intros NE L. unfold GetTableAsCSV. destruct (is_nil t); [reflexivity|]. unfold csv_headings.
    destruct subs as [|x xs]; [congruence|]. set (sb := x :: xs) in *. change (Nat.ltb 0 (List.length sb)) with true. cbn match.
    apply Z.eqb_neq in L. rewrite L. reflexivity.
Qed.

(** What the string form of a cell is: a string stands for itself, an integer for its decimal
    digits, a float for a number that reads back as the same float, a nested table for its
    name in brackets. *)
Theorem C31_string_forms : forall E h (p : ptr) t c r v, env_ok E -> reachable E h -> nth_error h p = Some t ->
  GetValByColIndex t c r = Ok v ->
  exists s, GetValAsStringByColIndex h t c r = Ok s
    /\ match v with
       | VString x => s = x
       | VBool b => s = if b then "true" else "false"
       | VInt k z => ColTypeByColIndex t c = Ok "rune" \/ literal k s z
       | VFloat32 f => no_inf f -> ParseFloat F32 s = Some f
       | VFloat64 f => no_inf f -> ParseFloat F64 s = Some f
       | VTable (Some q) => s = ("[" ++ tname (tab h q) ++ "]")%string
       | _ => True
       end.
Proof.
  intros E h p t c r v EO R N G. assert (W : wf_table t). { destruct (reachable_wf E h EO R) as [F _]. eapply Forall_nth_error; eauto. }
  assert (WH : wf_heap h) by (apply (reachable_wf E h EO R)).
  assert (NN : is_nil t = false). { unfold GetValByColIndex in G. destruct (is_nil t); [discriminate|reflexivity]. }
  rewrite get_at in G by exact W. destruct (_ && _)%bool eqn:B in G; [|discriminate]. apply andb_prop in B as [B1 B2].
  apply Z.leb_le in B1, B2. destruct (at_cell t (Z.to_nat c) (Z.to_nat r)) as [w|] eqn:A; [|discriminate]. injection G as ->.
  destruct (at_cell_range _ _ _ _ W A) as [LC LR].
  destruct (wf_at_cell t _ _ W LC LR) as (ct & w & T & Hct & A' & CO). rewrite A in A'. injection A' as <-.
  destruct (cell_text_ok h ct v Hct CO) as (s & S).
  assert (ZT : znth (ctypes t) c = Some ct) by (apply znth_some; split; [lia|exact T]).
  exists s. split.
  { unfold GetValAsStringByColIndex. rewrite NN.
    replace (GetValByColIndex t c r) with (Ok v). { cbn [rbind]. rewrite ZT, S. reflexivity. }
    symmetry. replace c with (Z.of_nat (Z.to_nat c)) by lia. replace r with (Z.of_nat (Z.to_nat r)) by lia. rewrite get_at_nat by exact W.
    rewrite A. reflexivity. }
  assert (CT : ColTypeByColIndex t c = Ok ct). { rewrite ColTypeByColIndex_eq by exact W. rewrite T.
    replace (HasColByColIndex t c) with true; [reflexivity|]. symmetry. unfold HasColByColIndex, ColCount.
    apply negb_true_iff, orb_false_intro; [apply Z.ltb_ge|rewrite Z.gtb_ltb; apply Z.ltb_ge]; lia. }
  destruct CO as [HT GV]. destruct v as [|b|x|k z|f|f|o|[q|]|tm|y]; cbn in HT; try contradiction; try exact I; try subst ct.
  - cbn in S. injection S as <-. reflexivity.
  - cbn in S. injection S as <-. reflexivity.
  - destruct (string_dec ct "rune") as [->|NR]; [left; exact CT|]. right.
    assert (Q : cell_text (fun s => s) encode h ct (VInt k z) = Some (Ok (dec_of z))).
    { destruct k; try (subst ct; reflexivity).
      - destruct HT as [-> |HT]; [reflexivity|contradiction].
      - destruct HT as [-> | ->]; reflexivity. }
    rewrite Q in S. injection S as <-. apply dec_of_literal, range_fits. exact GV.
  - cbn in S. injection S as <-. intros NI. apply ParseFloat_short; [left; reflexivity|exact GV|exact NI].
  - cbn in S. injection S as <-. intros NI. apply ParseFloat_short; [right; reflexivity|exact GV|exact NI].
  - cbn in S. injection S as <-. reflexivity.
Qed.

(** A table with a comma, quotes, line ends and leading spaces in its cells and headings,
    a NaN, an empty string, and a nested table. *)
Definition csv_history : list hop :=
  [ HNewTable "Parts"; HNewTable "Sub"; HNewTable "One";
    HTab (Some 2) (OAppendCol "s" "string"); HTab (Some 2) (OAppendRows 1);
    HTab (Some 0) (OAppendCol "s" "string"); HTab (Some 0) (OAppendCol "f" "float64");
    HTab (Some 0) (OAppendCol "t" "*Table"); HTab (Some 0) (OAppendCol "n" "int");
    HTab (Some 0) (OAppendRows 2);
    HTab (Some 0) (OSet "string" "s" 0 (VString (String dquote ("a,b" ++ newline ++ String dquote " ")%string)));
    HTab (Some 0) (OSet "float64" "f" 0 (VFloat64 (S754_finite true 5629499534213120 (-51))));
    HTab (Some 0) (OSet "float64" "f" 1 (VFloat64 S754_nan));
    HTab (Some 0) (OSet "int" "n" 1 (VInt KInt (-70)));
    HTab (Some 0) (OSet "*Table" "t" 0 (VTable (Some 1))) ].
Definition csv_heap : heap := Eval vm_compute in
  match play env0 csv_history [] with Some h => h | None => [] end.
Lemma csv_heap_reachable : reachable env0 csv_heap.
Proof. apply (play_reachable env0 csv_history [] _ (reach_empty env0)). vm_compute. reflexivity. Qed.

Example C31_nonvacuous :
  reachable env0 csv_heap /\ is_nil (tab csv_heap 0) = false /\ ColCount (tab csv_heap 0) = 4%Z
  /\ match GetTableAsCSV csv_heap (tab csv_heap 0) [" x"; ""; "a,b"; "q"] with
     | Ok s => csv_records s
     | _ => None
     end
     = Some [ [" x"; "f"; "a,b"; "q"];
              [String dquote ("a,b" ++ newline ++ String dquote " ")%string; "-2.5"; "[Sub]"; "0"];
              [""; ""; "[]"; "-70"] ]
  /\ GetTableAsCSV csv_heap (tab csv_heap 0) ["x"] = Err.
Proof. split; [apply csv_heap_reachable|]. vm_compute. auto. Qed.

(** A reader that drops blank lines (the Reader of Go's encoding/csv does) loses the rows of a
    table with one column whose cell is empty: such a row is written as a blank line. *)
Fixpoint drop_blank (rs : list (list string)) : list (list string) :=
  match rs with
  | [] => []
  | r :: q => if list_eq_dec string_dec r [""] then drop_blank q else r :: drop_blank q
  end.
Theorem C31_blank_lines_refuted : exists h (p : ptr) t text rs, reachable env0 h /\ nth_error h p = Some t
  /\ GetTableAsCSV h t [] = Ok text /\ csv_records text = Some rs
  /\ Z.of_nat (List.length rs) = (1 + RowCount t)%Z
  /\ Z.of_nat (List.length (drop_blank rs)) <> (1 + RowCount t)%Z.
Proof.
  exists csv_heap, 2, (tab csv_heap 2), ("s" ++ newline ++ newline)%string, [["s"]; [""]].
  split; [apply csv_heap_reachable|]. split; [vm_compute; reflexivity|]. split; [vm_compute; reflexivity|].
  split; [vm_compute; reflexivity|]. split; vm_compute; [reflexivity|discriminate].
Qed.

(** A table without columns is written as one blank line, which the standard rules read as a
    record of one empty field. *)
Theorem C31_no_columns_refuted : exists h (p : ptr) t text, reachable env0 h /\ nth_error h p = Some t
  /\ is_nil t = false /\ ColCount t = 0%Z /\ GetTableAsCSV h t [] = Ok text /\ csv_records text = Some [[""]].
Proof.
  exists csv_heap, 1, (tab csv_heap 1), newline. split; [apply csv_heap_reachable|].
  repeat split; vm_compute; reflexivity.
Qed.

(** Axioms used by any theorem of this file. *)
Definition all_Props_Csv :=
  (@C31_csv,
   @C31_errors,
   @C31_string_forms,
   @C31_blank_lines_refuted,
   @C31_no_columns_refuted).
Print Assumptions all_Props_Csv.
