(** Proofs_Parser.v -- the parser never panics, and what it builds is well formed. *)
From Coq Require Import ZArith NArith List String Ascii Bool SpecFloat Lia.
From Verif Require Import Base Model_Names Model_Table Model_Sort Model_Copy Model_Ops Model_Heap Model_TableSet
  Model_Lex Model_Float Model_Time Model_Parser Spec Spec_Heap Spec_Text Spec_TableSet Spec_Frame Proofs_Lib Proofs_Table Proofs_Cells Proofs_Struct
  Proofs_Pres Proofs_Heap Proofs_Frame Proofs_TableSet Proofs_Copy Proofs_Lex Proofs_Num Proofs_Float.
Import ListNotations.
Local Open Scope string_scope.
Local Open Scope list_scope.

(** ---------- single values ---------- *)

Lemma get_int_ok k s : match get_int k s with
  | Ok (v, _) => exists z, v = VInt k z /\ in_range k z = true
  | Err => True | Panic => False end.
Proof.
  rewrite get_int_kind. destruct (scan_kind k s) as [[text rest]|] eqn:S; [|exact I].
  destruct (parse_kind k text) as [z|] eqn:P; [|exact I].
  exists z. split; [reflexivity|]. apply (get_int_inv k s k z rest). rewrite get_int_kind, S, P. reflexivity.
Qed.

Local Open Scope Z_scope.

Lemma unhex_range c x : unhex c = Some x -> 0 <= x < 16.
Proof.
  unfold unhex. destruct (Model_Lex.between 48 57 c) eqn:A; [apply between_iff in A; intros [= <-]; lia|].
  destruct (Model_Lex.between 97 102 c) eqn:B; [apply between_iff in B; intros [= <-]; lia|].
  destruct (Model_Lex.between 65 70 c) eqn:D; [apply between_iff in D; intros [= <-]; lia|]. discriminate.
Qed.
Lemma unhex_n_range n : forall v s v' r, 0 <= v -> unhex_n n v s = Some (v', r) -> 0 <= v' < (v + 1) * 16 ^ Z.of_nat n.
Proof.
  induction n as [|n IH]; intros v s v' r V E.
  - cbn in E. injection E as <- <-. cbn. lia.
  - cbn [unhex_n] in E. destruct s as [|c s]; [discriminate|]. destruct (unhex c) as [x|] eqn:U; [|discriminate].
    apply unhex_range in U. apply IH in E; [|lia]. rewrite Nat2Z.inj_succ, Z.pow_succ_r by lia.
    pose proof (Z.pow_pos_nonneg 16 (Z.of_nat n) ltac:(lia) ltac:(lia)). nia.
Qed.
Lemma decode_range s r w : decode s = Some (r, w) -> 0 <= r <= 1114111.
Proof.
  intros D. destruct (Nat.eq_dec w 1) as [->|N].
  - destruct (Z.eq_dec r RuneError) as [->|N]; [unfold RuneError; lia|].
    destruct (encode_decode s r 1 D ltac:(auto)) as (V & _). apply valid_rune_range in V. lia.
  - destruct (encode_decode s r w D ltac:(intros; contradiction)) as (V & _). apply valid_rune_range in V. lia.
Qed.
Lemma UnquoteChar_range q s v mb r : UnquoteChar q s = Some (v, mb, r) -> 0 <= v <= 1114111.
Proof.
  unfold UnquoteChar. destruct s as [|c s]; [discriminate|]. destruct (Ascii.eqb c q); [discriminate|].
  pose proof (code_range c) as Rc.
  destruct (Z.leb_spec 128 (code c)).
  { destruct (decode (String c s)) as [[v' w]|] eqn:D; [|discriminate]. intros [= <- <- <-]. eapply decode_range; eauto. }
  destruct (negb (Ascii.eqb c bslash)); [intros [= <- <- <-]; lia|].
  destruct s as [|d s]; [discriminate|]. pose proof (code_range d) as Rd.
  destruct (unescape_letter d) as [x|] eqn:U.
  { intros [= <- <- <-]. unfold unescape_letter in U.
    repeat match type of U with (if ?b then _ else _) = _ => destruct b; [injection U as <-; lia|] end. discriminate. }
  destruct (Ascii.eqb d "x").
  { destruct (unhex_n 2 0 s) as [[x r']|] eqn:H2; [|discriminate]. intros [= <- <- <-]. apply unhex_n_range in H2; [|lia].
    cbn in H2. lia. }
  destruct (Ascii.eqb d "u").
  { destruct (unhex_n 4 0 s) as [[x r']|]; [|discriminate]. destruct (valid_rune x) eqn:V; [|discriminate].
    intros [= <- <- <-]. apply valid_rune_range in V. lia. }
  destruct (Ascii.eqb d "U").
  { destruct (unhex_n 8 0 s) as [[x r']|]; [|discriminate]. destruct (valid_rune x) eqn:V; [|discriminate].
    intros [= <- <- <-]. apply valid_rune_range in V. lia. }
  destruct (octal d) as [x|] eqn:O0.
  { destruct s as [|c1 [|c2 s]]; try discriminate. destruct (octal c1) as [y|] eqn:O1; [|discriminate].
    destruct (octal c2) as [z|] eqn:O2; [|discriminate]. cbv zeta. destruct (Z.ltb_spec 255 (x * 64 + y * 8 + z)); [discriminate|].
    intros [= <- <- <-].
    assert (G : forall c x, octal c = Some x -> 0 <= x).
    { unfold octal, is_oct. intros c' x' E. destruct (Model_Lex.between 48 55 c') eqn:B; [|discriminate]. apply between_iff in B. injection E as <-. lia. }
    apply G in O0. apply G in O1. apply G in O2. lia. }
  destruct (Ascii.eqb d bslash); [intros [= <- <- <-]; lia|].
  destruct (_ || _); [|discriminate]. destruct (Ascii.eqb d q); [|discriminate]. intros [= <- <- <-]. lia.
Qed.
Lemma parseRune_range s r : parseRune s = Some r -> in_range KInt32 r = true.
Proof.
  unfold parseRune. destruct (UnquoteChar squote s) as [[[v mb] [|]]|] eqn:U; try discriminate. intros [= <-].
  apply UnquoteChar_range in U. unfold in_range. cbn. apply andb_true_iff. split; apply Z.leb_le; lia.
Qed.

Lemma digits_n_val n : forall s a b, digits_n n s = Some (a, b) -> 0 <= dec_val a < 10 ^ Z.of_nat n.
Proof.
  intros s a b. unfold dec_val.
  assert (G : forall n s a b acc, 0 <= acc -> digits_n n s = Some (a, b) ->
     exists v, digits_val 10 acc a = Some v /\ 0 <= v < (acc + 1) * 10 ^ Z.of_nat n).
  { clear. induction n as [|n IH]; intros s a b acc A E.
    - cbn in E. injection E as <- <-. exists acc. cbn. split; [reflexivity|lia].
    - cbn [digits_n] in E. destruct s as [|c s]; [discriminate|]. destruct (is_dec c) eqn:D; [|discriminate].
      destruct (digits_n n s) as [[x y]|] eqn:E'; [|discriminate]. injection E as <- <-.
      cbn [digits_val]. unfold digit_val. unfold is_dec in D. rewrite D. apply between_iff in D.
      rewrite (proj2 (Z.ltb_lt _ _)) by lia.
      destruct (IH s x y (acc * 10 + (code c - 48)) ltac:(lia) E') as (v & V & R). exists v. split; [exact V|].
      rewrite Nat2Z.inj_succ, Z.pow_succ_r by lia. pose proof (Z.pow_pos_nonneg 10 (Z.of_nat n) ltac:(lia) ltac:(lia)). nia. }
  intros E. destruct (G n s a b 0 ltac:(lia) E) as (v & -> & R). lia.
Qed.
Lemma time_at_ns s f r : time_at s = Some (f, r) -> 0 <= tf_ns f < 1000000000.
Proof.
  unfold time_at. intros E.
  repeat match type of E with
  | match field ?a ?b ?c with _ => _ end = _ => destruct (field a b c) as [[? ?]|]; [|discriminate]
  end.
  match type of E with (let '(_, _) := ?m in _) = _ => destruct m as [ns s'] eqn:M end.
  destruct (time_zone s') as [[[[zh zm] zn] s'']|]; [|discriminate]. injection E as <- <-. cbn [tf_ns].
  match type of M with match ?x with _ => _ end = _ => destruct x as [|c x']; [injection M as <- <-; lia|] end.
  destruct (Ascii.eqb c "."); [|injection M as <- <-; lia].
  destruct (digits_n 9 x') as [[a b]|] eqn:D; [|injection M as <- <-; lia]. injection M as <- <-.
  apply digits_n_val in D. cbn in D. lia.
Qed.
Lemma scan_time_ns s : forall f r, scan_time s = Some (f, r) -> 0 <= tf_ns f < 1000000000.
Proof.
  induction s as [|c s IH]; intros f r E; cbn [scan_time] in E.
  - destruct (time_at "") as [[f' r']|] eqn:T; [|discriminate]. injection E as <- <-. eapply time_at_ns; eauto.
  - destruct (time_at (String c s)) as [[f' r']|] eqn:T; [injection E as <- <-; eapply time_at_ns; eauto|]. eapply IH; eauto.
Qed.
Lemma parse_time_ok f t : 0 <= tf_ns f < 1000000000 -> parse_time f = Some t -> go_value (VTime t) = true.
Proof.
  intros N. unfold parse_time. destruct (_ && _)%bool; [|discriminate]. intros [= <-]. cbn [go_value tm_nsec].
  apply andb_true_iff. rewrite Z.leb_le, Z.ltb_lt. lia.
Qed.
Lemma get_float_ok F s : fmt_ok F -> match get_float F s with
  | Ok (f, _) => valid_binary (f_prec F) (f_emax F) f = true
  | Err => True | Panic => False end.
Proof.
  intros Fo. unfold get_float. destruct (scan_float s) as [[text rest]|]; [|exact I]. cbn [of_opt rbind].
  destruct (ParseFloat F text) as [f|] eqn:P; [|exact I]. cbn [of_opt rbind].
  apply ParseFloat_valid in P; [|exact Fo]. destruct f; try exact P. destruct (_ =? _)%string; [exact P|exact I].
Qed.
Local Close Scope Z_scope.

Lemma NewTable_spec n : NewTable n = if IsValidTableName n then Ok (with_nil false (with_name n NewNilTable)) else Err.
Proof.
  unfold NewTable, run, SetName, bind, check, modify. destruct (IsValidTableName n); reflexivity.
Qed.
Lemma IsValidTableName_name n : IsValidTableName n = true -> valid_name n.
Proof. apply IsValidTableName_spec. Qed.
Lemma NewTable_wf n t : NewTable n = Ok t -> wf_table t /\ rows t = [] /\ parent t = None /\ is_nil t = false /\ cnames t = [] /\ tname t = n.
Proof.
  rewrite NewTable_spec. destruct (IsValidTableName n) eqn:V; [|discriminate]. intros [= <-].
  split; [|repeat split; reflexivity]. apply IsValidTableName_name in V.
  constructor; cbn [is_nil tname cnames ctypes cmap rows with_nil with_name NewNilTable]; auto using NoDup_nil, Forall_nil.
  intros m i. destruct i; split; discriminate.
Qed.

Definition grew (h h' : heap) : Prop := exists l, h' = h ++ l.
Lemma grew_refl h : grew h h.
Proof. exists []. now rewrite app_nil_r. Qed.
Lemma grew_trans a b c : grew a b -> grew b c -> grew a c.
Proof. intros [l ->] [m ->]. exists (l ++ m). now rewrite app_assoc. Qed.
Lemma grew_len h h' : grew h h' -> List.length h <= List.length h'.
Proof. intros [l ->]. rewrite app_length. lia. Qed.
Lemma grew_nth h h' q : grew h h' -> q < List.length h -> nth_error h' q = nth_error h q.
Proof. intros [l ->] L. now rewrite nth_error_app1. Qed.
Lemma grew_tab h h' q : grew h h' -> q < List.length h -> tab h' q = tab h q.
Proof. intros [l ->] L. unfold tab. now rewrite app_nth1. Qed.

Lemma heap_snoc h t : wf_heap h -> wf_table t -> rows t = [] -> (forall q, parent t = Some q -> q < S (List.length h)) -> wf_heap (h ++ [t]).
Proof.
  intros W Wt R P. apply wfh_heap. rewrite app_length. cbn [List.length]. apply wfh_app.
  - apply wfh_heap in W. eapply wfh_le; [|exact W]. lia.
  - apply wfh_cons; auto; [unfold ptrs_lt; rewrite R; constructor|intros q Q; specialize (P q Q); lia|repeat split; constructor].
Qed.

Lemma get_table_ok p s h : wf_heap h -> p < List.length h ->
  match get_table p s h with
  | Ok (h', v, _) => cell_ok "*Table" v /\ ptr_lt (List.length h') v /\ wf_heap h' /\ grew h h'
  | Err => True | Panic => False end.
Proof.
  intros W L. unfold get_table.
  assert (G : forall t (rest : string), wf_table t -> rows t = [] ->
    match Ok (h ++ [with_parent (Some p) t], VTable (Some (List.length h)), rest) with
    | Ok (h', v, _) => cell_ok "*Table" v /\ ptr_lt (List.length h') v /\ wf_heap h' /\ grew h h'
    | Err => True | Panic => False end).
  { intros t rest Wt R. split; [split; reflexivity|]. split; [cbn; rewrite app_length; cbn; lia|]. split; [|now exists [with_parent (Some p) t]].
    apply heap_snoc; auto; [now apply wf_parent|]. cbn. intros q [= <-]. lia. }
  destruct (scan_bracketed s) as [[n rest]|].
  - destruct (NewTable n) as [t| |] eqn:N; cbn [rbind]; [|exact I|].
    + apply NewTable_wf in N as (Wt & R & _). now apply (G t rest).
    + rewrite NewTable_spec in N. destruct (IsValidTableName n); discriminate.
  - destruct (scan_empty_brackets s) as [rest|]; cbn [of_opt rbind]; [|exact I]. apply (G NewNilTable rest); [apply wf_nil_table|reflexivity].
Qed.

Lemma get_slice_ok s : match get_slice s with
  | Ok (v, _) => exists l, v = VBytes (Some l)
  | Err => True | Panic => False end.
Proof.
  unfold get_slice. destruct (scan_slice s) as [[b r]|]; [|exact I]. cbn [of_opt rbind].
  destruct (all_some _) as [zs|]; [|exact I]. cbn [of_opt rbind]. eauto.
Qed.

Definition good_value (h h' : heap) (ct : string) (v : value) : Prop :=
  cell_ok ct v /\ ptr_lt (List.length h') v /\ wf_heap h' /\ grew h h'.

Lemma get_value_ok p ct s h : In ct all_types -> wf_heap h -> p < List.length h ->
  match get_value p ct s h with
  | Ok (h', v, _) => good_value h h' ct v
  | Err => True | Panic => False end.
Proof.
  intros T W L.
  assert (Int : forall k ct, has_type ct (VInt k 0) ->
    match pure h (get_int k s) (fun v => v) with
    | Ok (h', v, _) => good_value h h' ct v | Err => True | Panic => False end).
  { intros k ct' Ht. pose proof (get_int_ok k s) as G. unfold pure. destruct (get_int k s) as [[v r]| |]; cbn [rbind]; [|exact I|exact G].
    destruct G as (z & -> & R). repeat split; auto using grew_refl; try (destruct k; exact Ht); try apply W. }
  assert (Pure : forall A (r : res (A * string)) (f : A -> value) ct,
    (match r with Ok (a, _) => cell_ok ct (f a) /\ (forall q, f a <> VTable (Some q)) | Err => True | Panic => False end) ->
    match pure h r f with
    | Ok (h', v, _) => good_value h h' ct v | Err => True | Panic => False end).
  { intros A r f ct' G. unfold pure. destruct r as [[a b]| |]; cbn [rbind]; auto. destruct G as [C N].
    split; [exact C|]. split; [|split; [exact W|apply grew_refl]]. destruct (f a) as [| | | | | | |[q|]| |]; cbn; auto. now destruct (N q). }
  types T; unfold get_value, int_kind;
    repeat match goal with |- context [(?a =? ?b)%string] => let x := eval vm_compute in (a =? b)%string in change (a =? b)%string with x; cbn match end;
    cbn [orb]; cbn match; try (apply Int; cbn; auto; fail).
  all: try (apply Pure).
  all: try (pose proof (get_slice_ok s) as G; destruct (get_slice s) as [[v r]| |]; auto; destruct G as [l G]; rewrite G; split; [split; cbn; auto|discriminate]).
  all: try (destruct (scan_bool s) as [[v r]|]; cbn [of_opt]; [|exact I]; split; [split; reflexivity|discriminate]).
  all: try (pose proof (get_float_ok F32 s ltac:(now left)) as G; destruct (get_float F32 s) as [[v r]| |]; auto; split; [split; [reflexivity|exact G]|discriminate]).
  all: try (pose proof (get_float_ok F64 s ltac:(now right)) as G; destruct (get_float F64 s) as [[v r]| |]; auto; split; [split; [reflexivity|exact G]|discriminate]).
  all: try (now apply get_table_ok).
  - destruct (scan_rune s) as [[v r]|]; cbn [of_opt rbind]; [|exact I]. destruct (Nat.ltb _ _); [exact I|].
    destruct (parseRune v) as [x|] eqn:P; cbn [of_opt rbind]; [|exact I]. apply parseRune_range in P.
    split; [split; [cbn; auto|exact P]|discriminate].
  - destruct (scan_string s) as [[v r]|]; cbn [of_opt rbind]; [|exact I]. destruct (Unquote v) as [x|]; cbn [of_opt rbind]; [|exact I].
    split; [split; reflexivity|discriminate].
  - destruct (scan_time s) as [[v r]|] eqn:S; cbn [of_opt rbind]; [|exact I]. apply scan_time_ns in S.
    destruct (parse_time v) as [x|] eqn:P; cbn [of_opt rbind]; [|exact I]. apply parse_time_ok in P; [|exact S].
    split; [split; [reflexivity|exact P]|discriminate].
Qed.

Lemma get_values_ok p : forall cts s h, Forall (fun ct => In ct all_types) cts -> wf_heap h -> p < List.length h ->
  match get_values p cts s h with
  | Ok (h', vs) => Forall2 cell_ok cts vs /\ Forall (ptr_lt (List.length h')) vs /\ wf_heap h' /\ grew h h'
  | Err => True | Panic => False end.
Proof.
  induction cts as [|ct cts IH]; intros s h T W L; cbn [get_values].
  - destruct (s =? "")%string; [|exact I]. repeat split; auto using Forall2_nil, Forall_nil, grew_refl; apply W.
  - destruct (s =? "")%string; [exact I|]. inversion T as [|? ? T1 T2]; subst.
    pose proof (get_value_ok p ct s h T1 W L) as G. destruct (get_value p ct s h) as [[[h1 v] rest]| |]; cbn [rbind]; auto.
    destruct G as (C & P & W1 & G1). pose proof (grew_len _ _ G1) as L1.
    specialize (IH (trim_left is_blank rest) h1 T2 W1 ltac:(lia)).
    destruct (get_values p cts (trim_left is_blank rest) h1) as [[h2 vs]| |]; cbn [rbind]; auto.
    destruct IH as (C2 & P2 & W2 & G2). split; [now constructor|]. split.
    + constructor; [|exact P2]. eapply ptr_lt_le; [|exact P]. now apply grew_len.
    + split; [exact W2|]. eapply grew_trans; eauto.
Qed.
Lemma getRowSlice_ok p line cns cts h : Forall (fun ct => In ct all_types) cts -> List.length cns = List.length cts ->
  wf_heap h -> p < List.length h ->
  match getRowSlice p line cns cts h with
  | Ok (h', vs) => Forall2 cell_ok cts vs /\ Forall (ptr_lt (List.length h')) vs /\ wf_heap h' /\ grew h h'
  | Err => True | Panic => False end.
Proof.
  intros T Len W L. unfold getRowSlice. pose proof (get_values_ok p cts line h T W L) as G.
  destruct (get_values p cts line h) as [[h1 vs]| |]; cbn [rbind]; auto.
  rewrite Len, Nat.ltb_irrefl, Nat.sub_diag. cbn [repeat]. now rewrite app_nil_r.
Qed.


(** ---------- white space ---------- *)

Lemma srev_app_eq a : forall b, srev_app a b = (srev a ++ b)%string.
Proof.
  unfold srev. induction a as [|c a IH]; intros b; [reflexivity|]. cbn [srev_app]. rewrite IH, (IH (String c "")).
  rewrite app_str_assoc. reflexivity.
Qed.
Lemma srev_cons c s : srev (String c s) = (srev s ++ String c "")%string.
Proof. unfold srev at 1. cbn [srev_app]. apply srev_app_eq. Qed.
Lemma srev_app_str a b : srev (a ++ b)%string = (srev b ++ srev a)%string.
Proof.
  induction a as [|c a IH]; cbn [append]; [now rewrite app_str_nil_r|]. rewrite !srev_cons, IH, app_str_assoc. reflexivity.
Qed.
Lemma srev_srev s : srev (srev s) = s.
Proof. induction s as [|c s IH]; [reflexivity|]. rewrite srev_cons, srev_app_str, IH. reflexivity. Qed.
Lemma srev_len s : String.length (srev s) = String.length s.
Proof. induction s as [|c s IH]; [reflexivity|]. rewrite srev_cons, length_app_str, IH. cbn. lia. Qed.

Lemma strip_none encs s : strip_space encs s = None <-> forall e, In e encs -> String.prefix e s = false.
Proof.
  unfold strip_space. induction encs as [|e encs IH]; cbn [fold_right].
  - split; [intros _ e []|reflexivity].
  - destruct (String.prefix e s) eqn:P.
    + split; [discriminate|]. intros H. rewrite (H e) in P by (now left). discriminate.
    + rewrite IH. split; [intros H e' [<-|I]; auto|intros H e' I; apply H; now right].
Qed.
Lemma strip_some encs s r : strip_space encs s = Some r -> exists e, In e encs /\ s = (e ++ r)%string.
Proof.
  unfold strip_space. induction encs as [|e encs IH]; cbn [fold_right]; [discriminate|].
  destruct (String.prefix e s) eqn:P.
  - intros [= <-]. exists e. split; [now left|]. apply prefix_spec in P as [t ->]. now rewrite drop_app.
  - intros E. destruct (IH E) as (e' & I & ->). exists e'. split; [now right|reflexivity].
Qed.
Lemma trim_spaces_spec encs : Forall (fun e => e <> "") encs -> forall fuel s, String.length s <= fuel ->
  (exists k, s = (k ++ trim_spaces fuel encs s)%string) /\ strip_space encs (trim_spaces fuel encs s) = None.
Proof.
  intros N. induction fuel as [|fuel IH]; intros s L; cbn [trim_spaces].
  - destruct s; [|cbn in L; lia]. split; [now exists ""|]. apply strip_none. intros e I. rewrite Forall_forall in N.
    destruct e as [|c e]; [now destruct (N "" I)|reflexivity].
  - destruct (strip_space encs s) as [r|] eqn:S; [|split; [now exists ""|exact S]].
    apply strip_some in S as (e & I & ->). rewrite Forall_forall in N. specialize (N e I).
    destruct (IH r) as [[k K] Z].
    { rewrite length_app_str in L. destruct e; [congruence|]. cbn in L. lia. }
    split; [|exact Z]. exists (e ++ k)%string. rewrite app_str_assoc, <- K. reflexivity.
Qed.
Lemma encodings_nonempty : Forall (fun e => e <> "") space_encodings.
Proof. unfold space_encodings. repeat (apply Forall_cons; [discriminate|]). apply Forall_nil. Qed.
Lemma rev_encodings_nonempty : Forall (fun e => e <> "") (map srev space_encodings).
Proof. unfold space_encodings. repeat (apply Forall_cons; [discriminate|]). apply Forall_nil. Qed.

Lemma TrimSpace_head s : strip_space space_encodings (TrimSpace s) = None.
Proof.
  unfold TrimSpace. cbv zeta. set (l := trim_spaces (String.length s) space_encodings s).
  destruct (trim_spaces_spec _ encodings_nonempty _ s (Nat.le_refl _)) as [_ Z]. fold l in Z.
  destruct (trim_spaces_spec _ rev_encodings_nonempty (String.length l) (srev l)) as [[k K] _].
  { now rewrite srev_len. }
  set (t := trim_spaces (String.length l) (map srev space_encodings) (srev l)) in *.
  assert (Q : l = (srev t ++ srev k)%string) by (rewrite <- srev_app_str, <- K; now rewrite srev_srev).
  rewrite strip_none in *. intros e I. specialize (Z e I). destruct (String.prefix e (srev t)) eqn:P; [|reflexivity].
  apply prefix_spec in P as [u U]. rewrite Q, U, app_str_assoc, prefix_app in Z. discriminate.
Qed.
Lemma Fields_nonempty s : strip_space space_encodings s = None -> s <> "" -> Fields s <> [].
Proof.
  intros S N. unfold Fields. destruct s as [|c s]; [congruence|]. cbn [fields_from]. rewrite S. unfold field_add.
  destruct (fields_from _ _) as [[] [|]]; discriminate.
Qed.
Lemma split_white_nonempty s : split_white s <> [].
Proof.
  induction s as [|c s IH]; cbn [split_white]; [discriminate|]. destruct (is_white c).
  - destruct s as [|c' s']; [discriminate|]. destruct (is_white c'); [exact IH|discriminate].
  - destruct (split_white s); discriminate.
Qed.

(** ---------- lines ---------- *)

Lemma getTableShape_ok ls : ls <> [] -> getTableShape ls <> Panic.
Proof.
  intros N. unfold getTableShape. destruct ls as [|a [|b [|c [|d ls]]]]; cbn; try congruence; try discriminate.
  destruct (c =? "=")%string; discriminate.
Qed.
Lemma getTableSetName_ok line : Fields line <> [] -> getTableSetName line <> Panic.
Proof.
  unfold getTableSetName. destruct (Fields line) as [|w [|]]; [congruence| |discriminate]. intros _. destruct (scan_set_name w); discriminate.
Qed.
Lemma split_last_some c s : split_last (String c s) <> None.
Proof. cbn [split_last]. destruct (split_last s) as [[? ?]|]; discriminate. Qed.
Lemma getTableName_ok line : Fields line <> [] -> getTableName line <> Panic.
Proof.
  unfold getTableName. destruct (Fields line) as [|w [|]]; [congruence| |discriminate]. intros _.
  destruct (scan_bracketed w) as [x|] eqn:B; [|discriminate]. destruct w as [|c [|d w]]; [discriminate..|].
  pose proof (split_last_some d w) as Z. destruct (split_last (String d w)) as [[? ?]|]; [discriminate|congruence].
Qed.

(** ---------- the invariant ---------- *)

(** What holds of the tables and the table set at any time, when parsing started with [h0]. *)
Record binv (h0 : heap) (h : heap) (ts : tset) : Prop := {
  bi_wf : wf_heap h;
  bi_names : NoDup (set_names h ts);
  bi_named : Forall (fun n => n <> "") (set_names h ts);
  bi_refs : Forall (fun o => exists p, o = Some p /\ List.length h0 <= p < List.length h) (ts_tables ts);
  bi_len : List.length h0 <= List.length h;
  bi_old : forall q, q < List.length h0 -> nth_error h q = nth_error h0 q }.

Definition section_inv (h0 : heap) (g : parse_state) : Prop :=
  match ps_expecting g with
  | TABLE_NAME => True
  | x => exists p, ps_table g = Some p /\ List.length h0 <= p < List.length (ps_heap g) /\ tname (tab (ps_heap g) p) <> "" /\
      match x with
      | COL_NAMES => ps_shape g = STRUCT_SHAPE \/ (ps_shape g = UNDEFINED_SHAPE /\ cnames (tab (ps_heap g) p) = [])
      | COL_TYPES => cnames (tab (ps_heap g) p) = []
      | _ => cnames (tab (ps_heap g) p) = ps_names g /\ ctypes (tab (ps_heap g) p) = ps_types g
      end
  end.
Definition inv (h0 : heap) (g : parse_state) : Prop := binv h0 (ps_heap g) (ps_set g) /\ section_inv h0 g.

Lemma binv_change h0 h h' ts : binv h0 h ts -> wf_heap h' -> List.length h <= List.length h' ->
  (forall q, q < List.length h -> tname (tab h' q) = tname (tab h q)) ->
  (forall q, q < List.length h0 -> nth_error h' q = nth_error h q) -> binv h0 h' ts.
Proof.
  intros B W L N O.
  assert (E : set_names h' ts = set_names h ts).
  { unfold set_names. apply map_ext_in. intros o I. pose proof (bi_refs _ _ _ B) as R. rewrite Forall_forall in R.
    destruct (R o I) as (p & -> & P). cbn. apply N. lia. }
  constructor; auto.
  - rewrite E. apply B.
  - rewrite E. apply B.
  - eapply Forall_impl; [|apply (bi_refs _ _ _ B)]. intros o (p & -> & P). exists p. split; [reflexivity|lia].
  - pose proof (bi_len _ _ _ B). lia.
  - intros q Q. rewrite O by exact Q. now apply B.
Qed.
Lemma binv_grew h0 h h' ts : binv h0 h ts -> wf_heap h' -> grew h h' -> binv h0 h' ts.
Proof.
  intros B W G. pose proof (bi_len _ _ _ B). eapply binv_change; eauto using grew_len.
  - intros q Q. now rewrite (grew_tab h h').
  - intros q Q. apply (grew_nth h h'); [exact G|lia].
Qed.
Lemma binv_on h0 h ts {A} p (m : M A) : binv h0 h ts -> List.length h0 <= p < List.length h -> pres (List.length h) m -> kn m ->
  binv h0 (fst (on_heap p m h)) ts.
Proof.
  intros B P Pm K. destruct (on_heap_wf p m h (bi_wf _ _ _ B) Pm) as [W L].
  destruct (chg_on_heap p m true h (fun _ => K)) as (_ & O & N).
  eapply binv_change; eauto. intros q Q. apply O; [lia|]. cbn. lia.
Qed.

Lemma on_heap_tab {A} p (m : M A) h : p < List.length h ->
  tab (fst (on_heap p m h)) p = s_tab (fst (m (mkS (tab h p) (List.length h) []))) /\
  snd (on_heap p m h) = snd (m (mkS (tab h p) (List.length h) [])).
Proof.
  intros L. destruct (nth_error_lt h p L) as [t T]. destruct (on_heap_self p m h t T) as [A1 A2].
  assert (E : tab h p = t) by (unfold tab; now apply nth_error_nth). rewrite E. split; [|exact A2].
  unfold tab. now apply nth_error_nth.
Qed.
Lemma name_not_nil t : wf_table t -> tname t <> "" -> is_nil t = false.
Proof. intros W N. destruct (wf_name _ W) as [[E _]|(_ & E & _)]; congruence. Qed.

Lemma appendCols_ok cns cts s : wf_table (s_tab s) ->
  match appendCols cns cts s with
  | (s', Ok _) => cnames (s_tab s') = cnames (s_tab s) ++ cns /\ ctypes (s_tab s') = ctypes (s_tab s) ++ cts
  | (_, Err) => True | (_, Panic) => False end.
Proof.
  intros W. unfold appendCols, bind, check. destruct (Nat.eqb_spec (List.length cns) (List.length cts)) as [L|]; [|exact I].
  cbn [ret]. unfold ret. revert cts s W L. induction cns as [|cn cns IH]; intros [|ct cts] s W L; try discriminate.
  - cbn. now rewrite !app_nil_r.
  - cbn [combine mfor]. unfold bind. cbn [fst snd]. rewrite AppendCol_eq by exact W.
    destruct (can_append_col (s_tab s) cn ct) eqn:C; [|exact I].
    specialize (IH cts (col_added cn ct s) (col_added_wf cn ct s W C) ltac:(injection L; auto)).
    destruct (mfor (combine cns cts) _ _) as [s' [[]| |]]; auto. destruct IH as [-> ->]. cbn. now rewrite <- !app_assoc.
Qed.

Lemma on_current_ok h0 p (m : M unit) g : binv h0 (ps_heap g) (ps_set g) -> List.length h0 <= p < List.length (ps_heap g) ->
  pres (List.length (ps_heap g)) m -> kn m ->
  snd (m (mkS (tab (ps_heap g) p) (List.length (ps_heap g)) [])) <> Panic ->
  match on_current p m g with
  | Ok g' => exists h', g' = with_heap h' g /\ binv h0 h' (ps_set g) /\ List.length (ps_heap g) <= List.length h' /\
      tab h' p = s_tab (fst (m (mkS (tab (ps_heap g) p) (List.length (ps_heap g)) []))) /\
      (exists u, snd (m (mkS (tab (ps_heap g) p) (List.length (ps_heap g)) [])) = Ok u) /\
      tname (tab h' p) = tname (tab (ps_heap g) p)
  | Err => True | Panic => False end.
Proof.
  intros B P Pm K NP. destruct (on_heap_tab p m (ps_heap g) ltac:(lia)) as [T R].
  pose proof (binv_on h0 (ps_heap g) (ps_set g) p m B P Pm K) as B'.
  pose proof (on_heap_len p m (ps_heap g)) as Len.
  destruct (chg_on_heap p m true (ps_heap g) (fun _ => K)) as (_ & _ & N). specialize (N eq_refl p ltac:(lia)).
  unfold on_current. destruct (on_heap p m (ps_heap g)) as [h' r] eqn:E. cbn [fst snd] in *.
  rewrite R. destruct (snd (m _)) as [u| |]; cbn [rbind]; [|exact I|congruence].
  exists h'. repeat split; eauto using bi_wf; try apply B'.
Qed.

Lemma with_heap_set h g : ps_set (with_heap h g) = ps_set g. Proof. reflexivity. Qed.
Lemma with_heap_heap h g : ps_heap (with_heap h g) = h. Proof. reflexivity. Qed.

Lemma table_name_line_ok h0 line g : Fields line <> [] -> inv h0 g -> ps_expecting g = TABLE_NAME ->
  match table_name_line line g with Ok (_, g') => inv h0 g' | Err => True | Panic => False end.
Proof.
  intros F [B S] X. unfold table_name_line.
  pose proof (getTableSetName_ok line F) as NP. pose proof (getTableName_ok line F) as NT.
  assert (T : match (let! n := getTableName line in
      let! t := NewTable n in
      let p := List.length (ps_heap g) in
      let h := ps_heap g ++ [t] in
      let '(ts, r) := AppendTable h (ps_set g) (Some p) in
      let! _ := r in
      Ok (false, mkPS h ts COL_NAMES UNDEFINED_SHAPE (ps_has_data g) (ps_names g) (ps_types g) (ps_named g) (Some p))) with
      Ok (_, g') => inv h0 g' | Err => True | Panic => False end).
  { destruct (getTableName line) as [n| |]; cbn [rbind]; [|exact I|congruence].
    pose proof (NewTable_spec n) as NS. destruct (NewTable n) as [t| |] eqn:N; cbn [rbind]; [|exact I|destruct (IsValidTableName n); discriminate].
    clear NS. apply NewTable_wf in N as (Wt & R & Pa & Nil & Cn & Nm). cbv zeta.
    assert (Wh : wf_heap (ps_heap g ++ [t])) by (apply heap_snoc; auto; [apply B|rewrite Pa; discriminate]).
    assert (B' : binv h0 (ps_heap g ++ [t]) (ps_set g)) by (eapply binv_grew; eauto; now exists [t]).
    assert (Tp : tab (ps_heap g ++ [t]) (List.length (ps_heap g)) = t).
    { unfold tab. rewrite app_nth2, Nat.sub_diag by lia. reflexivity. }
    assert (Nn : n <> "").
    { intros ->. destruct (wf_name _ Wt) as [[_ [(c & r & E & _) _]]|[E _]]; [rewrite Nm in E; discriminate|congruence]. }
    unfold AppendTable. pose proof (find_table_spec (ps_heap g ++ [t]) (ref_name (ps_heap g ++ [t]) (Some (List.length (ps_heap g)))) (ts_tables (ps_set g))) as FS.
    destruct (find_table _ _ _) as [o|]; cbn [rbind]; [exact I|].
    pose proof (bi_len _ _ _ B).
    split.
    - cbn [ps_heap ps_set]. destruct B' as [b1 b2 b3 b4 b5 b6]. constructor; auto.
      + unfold set_names in *. cbn [ts_tables]. rewrite map_app. now apply NoDup_snoc.
      + unfold set_names in *. cbn [ts_tables]. rewrite map_app. apply Forall_app. split; [exact b3|].
        constructor; [|constructor]. cbn. rewrite Tp. congruence.
      + cbn [ts_tables]. apply Forall_app. split; [exact b4|]. constructor; [|constructor]. eexists. split; [reflexivity|].
        rewrite app_length. cbn. lia.
    - unfold section_inv. cbn [ps_expecting ps_table ps_heap ps_shape]. eexists. split; [reflexivity|]. rewrite Tp.
      split; [rewrite app_length; cbn; lia|]. split; [congruence|]. now right. }
  destruct (if ps_named g then Err else getTableSetName line) as [n| |] eqn:E; [|exact T|destruct (ps_named g); [discriminate|congruence]].
  split.
  - cbn. destruct B as [b1 b2 b3 b4 b5 b6]. constructor; auto.
  - unfold section_inv. cbn. now rewrite X.
Qed.

Lemma RowCount_pos t r0 rs : rows t = r0 :: rs -> (RowCount t =? 0)%Z = false.
Proof. intros E. unfold RowCount. rewrite E. cbn [List.length]. apply Z.eqb_neq. lia. Qed.

Lemma kn_SetStructShape b : kn (SetStructShape b).
Proof. unfold SetStructShape. knt. Qed.
Lemma kn_appendCols a b : kn (appendCols a b).
Proof. unfold appendCols. pose proof kn_AppendCol. knt. Qed.
Lemma kn_appendRowSlice r : kn (appendRowSlice r).
Proof. unfold appendRowSlice. knt. Qed.

Lemma struct_value_ok h0 p line ls cn ct g : binv h0 (ps_heap g) (ps_set g) -> List.length h0 <= p < List.length (ps_heap g) ->
  tname (tab (ps_heap g) p) <> "" -> In ct all_types -> 
  match struct_value p line ls cn ct g with
  | Ok g' => exists h', g' = with_heap h' g /\ binv h0 h' (ps_set g) /\ List.length (ps_heap g) <= List.length h' /\
               tname (tab h' p) <> ""
  | Err => True | Panic => False end.
Proof.
  intros B P N T. unfold struct_value. destruct (until "=" line) as [[a after]|]; [|exact I].
  destruct (Nat.ltb _ _); [exact I|]. cbv zeta.
  assert (S1 : match (if (RowCount (tab (ps_heap g) p) =? 0)%Z
                   then let! g := on_current p AppendRow g in on_current p (SetStructShape true) g
                   else Ok g) with
     | Ok g' => exists h', g' = with_heap h' g /\ binv h0 h' (ps_set g) /\ List.length (ps_heap g) <= List.length h' /\
               tname (tab h' p) <> "" /\ rows (tab h' p) <> []
     | Err => True | Panic => False end).
  { destruct (Z.eqb_spec (RowCount (tab (ps_heap g) p)) 0) as [E|E].
    - assert (Wp : wf_table (tab (ps_heap g) p)) by (apply tab_wf, B).
      assert (A : AppendRow (mkS (tab (ps_heap g) p) (List.length (ps_heap g)) []) =
                  (row_added (mkS (tab (ps_heap g) p) (List.length (ps_heap g)) []), Ok tt)).
      { rewrite AppendRow_eq by exact Wp. cbn [s_tab]. now rewrite (name_not_nil _ Wp N). }
      pose proof (on_current_ok h0 p AppendRow g B P (pres_AppendRow _) kn_AppendRow) as O1. rewrite A in O1. cbn [fst snd] in O1.
      specialize (O1 ltac:(discriminate)). destruct (on_current p AppendRow g) as [g1| |]; cbn [rbind]; auto.
      destruct O1 as (h1 & -> & B1 & L1 & T1 & _ & N1).
      pose proof (on_current_ok h0 p (SetStructShape true) (with_heap h1 g)) as O2. rewrite with_heap_set, with_heap_heap in O2.
      specialize (O2 B1 ltac:(lia) (pres_SetStructShape _ _) (kn_SetStructShape _) ltac:(discriminate)).
      destruct (on_current p (SetStructShape true) (with_heap h1 g)) as [g2| |]; auto.
      destruct O2 as (h2 & -> & B2 & L2 & T2 & _ & N2). exists h2. split; [reflexivity|]. split; [exact B2|]. split; [lia|].
      split; [congruence|]. rewrite T2. cbn. rewrite T1. cbn. destruct (rows (tab (ps_heap g) p)); discriminate.
    - exists (ps_heap g). split; [now destruct g|]. split; [exact B|]. split; [lia|]. split; [exact N|].
      intros R. apply E. unfold RowCount. now rewrite R. }
  destruct (if (RowCount (tab (ps_heap g) p) =? 0)%Z then _ else _) as [g1| |]; cbn [rbind]; auto.
  destruct S1 as (h1 & -> & B1 & L1 & N1 & R1). rewrite with_heap_heap.
  pose proof (getRowSlice_ok p (trim_left is_space4 after) [cn] [ct] h1 ltac:(apply Forall_cons; [exact T|apply Forall_nil]) eq_refl (bi_wf _ _ _ B1) ltac:(lia)) as G.
  destruct (getRowSlice p _ [cn] [ct] h1) as [[h2 row]| |]; cbn [rbind]; auto.
  destruct G as (C & Pt & W2 & Gr). pose proof (grew_len _ _ Gr) as L2. rewrite with_heap_heap.
  rewrite (grew_tab h1 h2 p Gr) by lia.
  inversion C as [|? v ? vs Cv Cvs]; subst. inversion Cvs; subst. destruct (rows (tab h1 p)) as [|r0 rs]; [congruence|].
  assert (B2 : binv h0 h2 (ps_set g)) by (eapply binv_grew; eauto).
  pose proof (on_current_ok h0 p (SetValByColIndex (Z.of_nat (List.length r0) - 1) 0 v) (with_heap h2 (with_heap h1 g))) as O.
  rewrite with_heap_heap in O. change (ps_set (with_heap h2 (with_heap h1 g))) with (ps_set g) in O.
  assert (Pv : ptr_lt (List.length h2) v) by (inversion Pt; auto).
  assert (NP : snd (SetValByColIndex (Z.of_nat (List.length r0) - 1) 0 v (mkS (tab h2 p) (List.length h2) [])) <> Panic).
  { destruct (SetValByColIndex_eq (Z.of_nat (List.length r0) - 1) 0 v (mkS (tab h2 p) (List.length h2) [])) as [[_ E]|[_ E]];
      [apply tab_wf, W2|rewrite E; discriminate..]. }
  specialize (O B2 ltac:(lia) (pres_SetValByColIndex _ _ _ _ (proj2 Cv) Pv) (kn_SetValByColIndex _ _ _) NP).
  destruct (on_current p _ _) as [g3| |]; auto. destruct O as (h3 & -> & B3 & L3 & T3 & _ & N3).
  exists h3. split; [reflexivity|]. split; [exact B3|]. split; [lia|]. rewrite N3, (grew_tab h1 h2 p Gr) by lia. exact N1.
Qed.

Lemma col_names_line_ok h0 line g : inv h0 g -> ps_expecting g = COL_NAMES ->
  match col_names_line line g with Ok g' => inv h0 g' | Err => True | Panic => False end.
Proof.
  intros [B S] X. unfold section_inv in S. rewrite X in S. destruct S as (p & Pt & P & N & Sh). unfold col_names_line. cbv zeta.
  pose proof (split_white_nonempty line) as NW. set (ls := split_white line) in *.
  assert (Struct : forall g, binv h0 (ps_heap g) (ps_set g) -> ps_table g = Some p -> List.length h0 <= p < List.length (ps_heap g) ->
     tname (tab (ps_heap g) p) <> "" -> ps_expecting g = COL_NAMES -> ps_shape g = STRUCT_SHAPE ->
     match (let! p := current g in
      let! g := on_current p (SetStructShape true) g in
      if Nat.ltb (List.length ls) 2 then Err
      else
        let! cn := at_ ls 0 in
        let! ct := at_ ls 1 in
        if negb (IsValidColName cn) then Err
        else if negb (IsValidColType ct) then Err
        else
          let! g := on_current p (AppendCol cn ct) g in
          if ps_has_data g then struct_value p line ls cn ct g else Ok g) with
      Ok g' => inv h0 g' | Err => True | Panic => False end).
  { clear g B X Pt P N Sh. intros g B Pt P N X Sh. unfold current. rewrite Pt. cbn [rbind].
    pose proof (on_current_ok h0 p (SetStructShape true) g B P (pres_SetStructShape _ _) (kn_SetStructShape _) ltac:(discriminate)) as O1.
    destruct (on_current p (SetStructShape true) g) as [g1| |]; cbn [rbind]; auto.
    destruct O1 as (h1 & -> & B1 & L1 & T1 & _ & N1).
    destruct (Nat.ltb_spec (List.length ls) 2) as [|L]; [exact I|]. destruct ls as [|cn [|ct ls']]; [cbn in L; lia..|].
    cbn [at_ nth_error rbind]. destruct (IsValidColName cn); cbn [negb]; [|exact I].
    destruct (IsValidColType ct) eqn:Ct; cbn [negb]; [|exact I]. apply IsValidColType_spec in Ct.
    pose proof (on_current_ok h0 p (AppendCol cn ct) (with_heap h1 g)) as O2. rewrite with_heap_set, with_heap_heap in O2.
    assert (NP : snd (AppendCol cn ct (mkS (tab h1 p) (List.length h1) [])) <> Panic).
    { rewrite AppendCol_eq by (apply tab_wf, B1). destruct (can_append_col _ _ _); discriminate. }
    specialize (O2 B1 ltac:(lia) (pres_AppendCol _ _ _) (kn_AppendCol _ _) NP).
    destruct (on_current p (AppendCol cn ct) (with_heap h1 g)) as [g2| |]; cbn [rbind]; auto.
    destruct O2 as (h2 & -> & B2 & L2 & T2 & _ & N2).
    assert (Fin : forall h', binv h0 h' (ps_set g) -> List.length h2 <= List.length h' -> tname (tab h' p) <> "" -> inv h0 (with_heap h' (with_heap h1 g))).
    { intros h' B' L' N'. split; [exact B'|]. unfold section_inv. cbn. rewrite X. exists p. rewrite Sh.
      split; [exact Pt|]. split; [lia|]. split; [exact N'|]. now left. }
    change (ps_has_data (with_heap h2 (with_heap h1 g))) with (ps_has_data g).
    destruct (ps_has_data g); [|apply Fin; auto; congruence].
    pose proof (struct_value_ok h0 p line (cn :: ct :: ls') cn ct (with_heap h2 (with_heap h1 g)) B2) as SV. rewrite with_heap_heap in SV.
    specialize (SV ltac:(lia) ltac:(congruence) Ct). destruct (struct_value _ _ _ _ _ _) as [g3| |]; auto.
    destruct SV as (h3 & -> & B3 & L3 & N3). apply (Fin h3); auto. }
  assert (Tab : forall g, binv h0 (ps_heap g) (ps_set g) -> ps_table g = Some p -> List.length h0 <= p < List.length (ps_heap g) ->
     tname (tab (ps_heap g) p) <> "" -> cnames (tab (ps_heap g) p) = [] ->
     match (let! cns := getColNames ls in Ok (with_expecting COL_TYPES (with_names cns g))) with
     Ok g' => inv h0 g' | Err => True | Panic => False end).
  { clear g B X Pt P N Sh. intros g B Pt P N Cn. unfold getColNames. destruct (forallb _ _); [|exact I]. cbn [rbind].
    split; [exact B|]. unfold section_inv. cbn. exists p. auto. }
  destruct Sh as [Sh|[Sh Cn]]; rewrite Sh.
  - cbn [rbind]. rewrite Sh. now apply (Struct g).
  - pose proof (getTableShape_ok ls NW) as NS. destruct (getTableShape ls) as [[sh d]| |]; cbn [rbind]; [|exact I|congruence].
    cbn [ps_shape with_shape_data]. destruct sh.
    + now apply (Tab (with_shape_data TABLE_SHAPE d g)).
    + now apply (Struct (with_shape_data STRUCT_SHAPE d g)).
    + now apply (Tab (with_shape_data UNDEFINED_SHAPE d g)).
Qed.

Lemma col_types_line_ok h0 line g : inv h0 g -> ps_expecting g = COL_TYPES ->
  match col_types_line line g with Ok g' => inv h0 g' | Err => True | Panic => False end.
Proof.
  intros [B S] X. unfold section_inv in S. rewrite X in S. destruct S as (p & Pt & P & N & Cn). unfold col_types_line, getColTypes. cbv zeta.
  destruct (forallb IsValidColType (split_white line)); [|exact I]. cbn [rbind]. set (cts := split_white line).
  change (ps_names (with_types cts g)) with (ps_names g). destruct (Nat.eqb _ _); cbn [negb]; [|exact I].
  unfold current. change (ps_table (with_types cts g)) with (ps_table g). rewrite Pt. cbn [rbind].
  assert (Wp : wf_table (tab (ps_heap g) p)) by (apply tab_wf, B).
  pose proof (appendCols_ok (ps_names g) cts (mkS (tab (ps_heap g) p) (List.length (ps_heap g)) []) Wp) as AC.
  pose proof (on_current_ok h0 p (appendCols (ps_names g) cts) (with_types cts g) B P (pres_appendCols _ _ _) (kn_appendCols _ _)) as O.
  change (ps_heap (with_types cts g)) with (ps_heap g) in O.
  destruct (appendCols (ps_names g) cts _) as [s' r]. cbn [fst snd] in O. specialize (O ltac:(destruct r; [discriminate..|destruct AC])).
  destruct (on_current p _ _) as [g'| |]; cbn [rbind]; auto. destruct O as (h' & -> & B' & L' & T' & [u Er] & N').
  rewrite Er in AC. destruct AC as [A1 A2]. cbn [s_tab] in A1, A2. rewrite Cn in A1.
  assert (Ct : ctypes (tab (ps_heap g) p) = []).
  { pose proof (wf_types_len _ Wp) as E. rewrite Cn in E. now destruct (ctypes (tab (ps_heap g) p)). }
  rewrite Ct in A2. split; [exact B'|]. unfold section_inv. cbn [ps_expecting ps_table ps_heap with_expecting with_heap with_types ps_names ps_types].
  exists p. split; [exact Pt|]. split; [lia|]. split; [rewrite N'; exact N|]. rewrite T'. auto.
Qed.

Lemma col_rows_line_ok h0 line g : inv h0 g -> ps_expecting g = COL_ROWS ->
  match col_rows_line line g with Ok g' => inv h0 g' | Err => True | Panic => False end.
Proof.
  intros [B S] X. unfold section_inv in S. rewrite X in S. destruct S as (p & Pt & P & N & Cn & Ct). unfold col_rows_line.
  unfold current. rewrite Pt. cbn [rbind].
  assert (Wp : wf_table (tab (ps_heap g) p)) by (apply tab_wf, B).
  pose proof (getRowSlice_ok p line (ps_names g) (ps_types g) (ps_heap g)) as G.
  assert (G1 : Forall (fun ct => In ct all_types) (ps_types g)) by (rewrite <- Ct; apply Wp).
  assert (G2 : List.length (ps_names g) = List.length (ps_types g)) by (rewrite <- Ct, <- Cn; symmetry; apply Wp).
  specialize (G G1 G2 (bi_wf _ _ _ B) ltac:(lia)).
  destruct (getRowSlice p line (ps_names g) (ps_types g) (ps_heap g)) as [[h1 row]| |]; cbn [rbind]; auto.
  destruct G as (C & Pr & W1 & Gr). pose proof (grew_len _ _ Gr) as L1.
  assert (B1 : binv h0 h1 (ps_set g)) by (eapply binv_grew; eauto).
  assert (T1 : tab h1 p = tab (ps_heap g) p) by (apply grew_tab; [exact Gr|lia]).
  destruct (nth_error_lt h1 p ltac:(lia)) as [t E].
  assert (Et : t = tab (ps_heap g) p) by (rewrite <- T1; unfold tab; symmetry; now apply nth_error_nth).
  assert (O : on_current p (appendRowSlice row) (with_heap h1 g) = Ok (with_heap (upd h1 p (with_rows (rows t ++ [row]) t) ++ []) (with_heap h1 g))).
  { unfold on_current, on_heap. rewrite with_heap_heap, E. unfold appendRowSlice, modify. reflexivity. }
  rewrite O. cbn [rbind]. rewrite app_nil_r.
  change (ps_types (with_heap _ (with_heap h1 g))) with (ps_types g).
  rewrite (Forall2_len _ _ _ C), Nat.eqb_refl. cbn [negb].
  set (t' := with_rows (rows t ++ [row]) t). set (h' := upd h1 p t').
  assert (Lh : List.length h' = List.length h1) by (apply upd_length).
  assert (W' : wf_heap h').
  { apply wfh_heap. rewrite Lh. apply wfh_heap in W1. destruct (wfh_nth _ _ _ _ W1 E) as (Wt & Pt' & Pa).
    apply wfh_upd; auto.
    - destruct Wt as [w1 w2 w3 w4 w5 w6 w7]. constructor; auto; cbn [t' with_rows is_nil tname cnames rows ctypes cmap].
      + destruct w1 as [w1|(w1 & w1' & _)]; [now left|]. exfalso. apply N. now rewrite <- Et.
      + apply Forall_app. split; [exact w7|]. constructor; [|constructor]. now rewrite Et, Ct.
    - unfold ptrs_lt in *. cbn [t' with_rows rows]. apply Forall_app. split; [exact Pt'|]. now constructor. }
  assert (Tp : tab h' p = t').
  { unfold tab. apply nth_error_nth. unfold h'. apply nth_error_upd_eq. unfold ptr in *. lia. }
  split.
  - cbn [ps_heap ps_set with_heap]. eapply (binv_change h0 h1 h'); auto; [lia| |].
    + intros q Q. destruct (Nat.eq_dec q p) as [->|Nq]; [rewrite Tp; cbn; now rewrite T1, Et|].
      assert (Z : nth_error h' q = nth_error h1 q) by (apply nth_upd_other; auto).
      now rewrite (tab_eq _ _ _ Z).
    + intros q Q. apply nth_upd_other. lia.
  - unfold section_inv. cbn [ps_expecting ps_table ps_heap with_heap ps_names ps_types]. rewrite X. exists p. split; [exact Pt|].
    rewrite Lh. split; [lia|]. rewrite Tp. cbn [t' with_rows tname cnames ctypes]. rewrite Et. auto.
Qed.

Lemma parse_line_ok h0 line g : inv h0 g ->
  match parse_line line g with Ok (_, g') => inv h0 g' | Err => True | Panic => False end.
Proof.
  intros V. unfold parse_line. pose proof (TrimSpace_head line) as TH. destruct (TrimSpace line) as [|c r].
  - assert (E : inv h0 (with_expecting TABLE_NAME g)) by (split; [apply V|exact I]).
    destruct (ps_expecting g); auto.
  - destruct (Ascii.eqb c "#"); [exact V|]. pose proof (Fields_nonempty _ TH ltac:(discriminate)) as NF.
    destruct (ps_expecting g) eqn:X.
    + now apply table_name_line_ok.
    + pose proof (col_names_line_ok h0 (String c r) g V X) as O. destruct (col_names_line _ _); cbn [rbind]; auto.
    + pose proof (col_types_line_ok h0 (String c r) g V X) as O. destruct (col_types_line _ _); cbn [rbind]; auto.
    + pose proof (col_rows_line_ok h0 (String c r) g V X) as O. destruct (col_rows_line _ _); cbn [rbind]; auto.
Qed.
Lemma parse_lines_ok h0 : forall ls g, inv h0 g ->
  match parse_lines ls g with Ok g' => inv h0 g' | Err => True | Panic => False end.
Proof.
  induction ls as [|l ls IH]; intros g V; cbn [parse_lines]; [exact V|].
  pose proof (parse_line_ok h0 l g V) as O. destruct (parse_line l g) as [[c g1]| |]; cbn [rbind]; auto.
  destruct ls as [|l2 ls].
  - destruct c; [|exact O]. pose proof (parse_line_ok h0 "" g1 O) as O2. destruct (parse_line "" g1) as [[c2 g2]| |]; cbn [rbind]; auto.
  - now apply IH.
Qed.
Theorem parse_ok h s : wf_heap h ->
  match NewTableSetFromString s h with
  | (h', Ok ts) => binv h h' ts
  | (h', Err) => h' = h
  | (_, Panic) => False end.
Proof.
  intros W. unfold NewTableSetFromString.
  pose proof (parse_lines_ok h (lines s) (mkPS h (NewTableSet "") TABLE_NAME UNDEFINED_SHAPE false [] [] false None)) as P.
  destruct (parse_lines _ _) as [g| |]; auto; try apply P; try (split; [|exact I]; constructor; auto; try constructor; lia).
Qed.
