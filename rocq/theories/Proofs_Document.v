(** Proofs_Document.v -- what the parser accepts is what Spec_Document says. *)
From Coq Require Import ZArith NArith List String Ascii Bool SpecFloat Lia.
From Verif Require Import Base Model_Names Model_Table Model_Sort Model_Copy Model_Ops Model_Heap Model_TableSet
  Model_Lex Model_Float Model_Time Model_Parser Spec Spec_Text Spec_Document
  Proofs_Lib Proofs_Table Proofs_Cells Proofs_Struct Proofs_Api Proofs_Api2 Proofs_Pres Samples Proofs_Zero Spec_Heap Proofs_Heap Proofs_Frame
  Spec_TableSet Proofs_TableSet Proofs_Lex Proofs_Num Proofs_Float Proofs_Parser Proofs_Lines Spec_Decimal Proofs_Closest Proofs_Decimal Spec_Time Proofs_Time Props_Lex.
Import ListNotations.
Local Open Scope string_scope.
Local Open Scope list_scope.

Lemma every_all f s : every f s <-> all_c f s = true.
Proof.
  unfold every. induction s as [|c s IH]; cbn [list_ascii_of_string all_c]; [split; [reflexivity|constructor]|].
  rewrite Forall_cons_iff, IH, Bool.andb_true_iff. reflexivity.
Qed.

(** ---------- one cell ---------- *)

Lemma string_body_app s : forall a b, string_body s = Some (a, b) -> s = (a ++ b)%string.
Proof.
  assert (Z : forall n s, String.length s <= n -> forall a b, string_body s = Some (a, b) -> s = (a ++ b)%string); [|exact (Z _ s (Nat.le_refl _))].
  clear s. induction n as [|n IH]; intros [|c s] L a b; cbn in L; try lia; cbn [string_body]; try discriminate.
  destruct (Ascii.eqb_spec c dquote) as [->|]; [now intros [= <- <-]|].
  destruct (Ascii.eqb_spec c bslash) as [->|].
  - destruct s as [|d s]; [discriminate|]. destruct (Ascii.eqb d nl); [discriminate|].
    destruct (string_body s) as [[x y]|] eqn:E; [|discriminate]. intros [= <- <-]. cbn in L. rewrite (IH s ltac:(lia) _ _ E). reflexivity.
  - destruct (string_body s) as [[x y]|] eqn:E; [|discriminate]. intros [= <- <-]. rewrite (IH s ltac:(lia) _ _ E). reflexivity.
Qed.
Lemma scan_string_app s a b : scan_string s = Some (a, b) -> s = (a ++ b)%string.
Proof.
  unfold scan_string. destruct s as [|c s]; [discriminate|]. destruct (Ascii.eqb c dquote); [|discriminate].
  destruct (string_body s) as [[x y]|] eqn:E; [|discriminate]. intros [= <- <-]. now rewrite (string_body_app _ _ _ E).
Qed.
Lemma scan_bool_app s a b : scan_bool s = Some (a, b) -> s = (a ++ b)%string /\ (a = "true" \/ a = "false").
Proof.
  unfold scan_bool. destruct (String.prefix "true" s && _) eqn:T.
  - intros [= <- <-]. apply andb_true_iff in T as [T _]. apply prefix_spec in T as [u ->]. split; [reflexivity|now left].
  - destruct (String.prefix "false" s && _) eqn:F; [|discriminate].
    intros [= <- <-]. apply andb_true_iff in F as [F _]. apply prefix_spec in F as [u ->]. split; [reflexivity|now right].
Qed.
Lemma until_app c s a b : until c s = Some (a, b) -> s = (a ++ String c b)%string /\ has c a = false.
Proof.
  revert a. induction s as [|d s IH]; intros a; cbn [until]; [discriminate|].
  destruct (Ascii.eqb_spec d c) as [->|N]; [now intros [= <- <-]|].
  destruct (until c s) as [[x y]|] eqn:E; [|discriminate]. intros [= <- <-]. destruct (IH x eq_refl) as [-> H]. split; [reflexivity|].
  unfold has in *. cbn. rewrite H. destruct (Ascii.eqb_spec c d); [congruence|reflexivity].
Qed.
Lemma until_last_app s a b : until_last_quote s = Some (a, b) -> s = (a ++ String squote b)%string.
Proof.
  revert a. induction s as [|d s IH]; intros a; cbn [until_last_quote]; [discriminate|]. destruct (Ascii.eqb d nl); [discriminate|].
  destruct (until_last_quote s) as [[x y]|] eqn:E.
  - intros [= <- <-]. now rewrite (IH x eq_refl).
  - destruct (Ascii.eqb_spec d squote) as [->|]; [now intros [= <- <-]|discriminate].
Qed.
Lemma take_drop w s : s = (substring 0 w s ++ drop w s)%string.
Proof. revert s. induction w as [|w IH]; intros [|c s]; cbn; try reflexivity. f_equal. apply IH. Qed.
Lemma scan_rune_app s a b : scan_rune s = Some (a, b) -> exists junk, s = (junk ++ String squote (a ++ String squote b))%string.
Proof.
  unfold scan_rune. destruct (until squote s) as [[junk r]|] eqn:U; [|discriminate]. apply until_app in U as [-> _].
  intros E. exists junk. f_equal. f_equal.
  destruct (String.prefix escaped_newline r) eqn:P1.
  { injection E as <- <-. apply prefix_spec in P1 as [u ->]. reflexivity. }
  destruct (String.prefix escaped_quote r) eqn:P2.
  { injection E as <- <-. apply prefix_spec in P2 as [u ->]. reflexivity. }
  destruct (scan_rune_hex r) as [x|] eqn:X; [|now apply until_app in E as [-> _]]. injection E as ->.
  unfold scan_rune_hex in X. destruct (decode r) as [[v w]|]; [|discriminate]. destruct (v =? code squote)%Z; [discriminate|].
  destruct (drop w r) as [|b1 [|c rest]] eqn:D; [discriminate..|]. destruct (_ && _); [|discriminate].
  destruct (until_last_quote rest) as [[t rest']|] eqn:L; [|discriminate]. injection X as <- <-. apply until_last_app in L. subst rest.
  rewrite (take_drop w r) at 1. rewrite D, app_str_assoc. reflexivity.
Qed.

Lemma some_digits_app' f p s a b : some_digits f p s = Some (a, b) -> exists d, a = (p ++ d)%string /\ s = (d ++ b)%string.
Proof. intros E. apply some_digits_inv in E as (d & -> & -> & _). now exists d. Qed.
Lemma scan_dec_app signs s a b : scan_dec signs s = Some (a, b) -> s = (a ++ b)%string.
Proof.
  unfold scan_dec. destruct s as [|c s]; [discriminate|]. destruct (one_of signs c).
  - intros E. apply some_digits_app' in E as (d & -> & ->). reflexivity.
  - intros E. apply some_digits_app' in E as (d & -> & E). exact E.
Qed.
Lemma scan_exponent_app s a b : scan_exponent s = (a, b) -> s = (a ++ b)%string.
Proof.
  unfold scan_exponent. destruct s as [|e s]; [now intros [= <- <-]|]. destruct (one_of "eE" e); [|now intros [= <- <-]].
  destruct (scan_dec "+-" s) as [[d r]|] eqn:D; [|now intros [= <- <-]]. intros [= <- <-]. now rewrite (scan_dec_app _ _ _ _ D).
Qed.
Lemma scan_mantissa_app s a b : scan_mantissa s = Some (a, b) -> s = (a ++ b)%string.
Proof.
  unfold scan_mantissa. destruct (span is_dec s) as [x rest] eqn:S. apply span_inv in S as (-> & _ & _).
  destruct x as [|c d].
  - destruct rest as [|p r]; [discriminate|]. destruct (Ascii.eqb_spec p ".") as [->|]; [|discriminate].
    intros E. apply some_digits_app' in E as (y & -> & ->). reflexivity.
  - destruct rest as [|p r]; [now intros [= <- <-]|]. destruct (Ascii.eqb p "."); [|now intros [= <- <-]].
    destruct (span is_dec r) as [f r'] eqn:S. apply span_inv in S as (-> & _ & _). intros [= <- <-]. cbn [append]. now rewrite app_str_assoc.
Qed.
Lemma scan_decimal_app s a b : scan_decimal s = Some (a, b) -> s = (a ++ b)%string.
Proof.
  unfold scan_decimal. destruct (match s with String c r => _ | _ => _ end) as [sign r] eqn:S.
  assert (Q : s = (sign ++ r)%string).
  { destruct s as [|c s]; [now injection S as <- <-|]. destruct (one_of "-+" c); now injection S as <- <-. }
  destruct (scan_mantissa r) as [[m r']|] eqn:M; [|discriminate]. apply scan_mantissa_app in M. subst r.
  destruct (scan_exponent r') as [e r''] eqn:X. apply scan_exponent_app in X. subst r'. intros [= <- <-]. rewrite Q, !app_str_assoc. reflexivity.
Qed.
Lemma scan_nan_app s a b : scan_nan s = Some (a, b) -> exists junk, s = (junk ++ a ++ b)%string.
Proof.
  induction s as [|x s IH]; cbn [scan_nan]; [discriminate|]. destruct s as [|y [|z s]]; [discriminate..|].
  destruct (_ && _ && _).
  - intros [= <- <-]. now exists "".
  - intros E. destruct (IH E) as [j J]. exists (String x j). now rewrite J.
Qed.
Lemma decimal_not_nan s a b : scan_decimal s = Some (a, b) -> a <> "NaN".
Proof.
  unfold scan_decimal. destruct (match s with String c r => _ | _ => _ end) as [sign r] eqn:S.
  assert (Q : sign = "" \/ exists c, sign = String c "" /\ one_of "-+" c = true).
  { destruct s as [|c s]; [now injection S as <- <-; left|]. destruct (one_of "-+" c) eqn:O; injection S as <- <-; eauto. }
  destruct (scan_mantissa r) as [[m r']|] eqn:M; [|discriminate]. destruct (scan_exponent r') as [e r'']. intros [= <- <-].
  destruct Q as [->|(c & -> & O)].
  - unfold scan_mantissa in M. destruct (span is_dec r) as [x rest] eqn:Sp. apply span_inv in Sp as (_ & A & _). destruct x as [|c d].
    + destruct rest as [|p rest]; [discriminate|]. destruct (Ascii.eqb_spec p ".") as [->|]; [|discriminate].
      apply some_digits_app' in M as (y & -> & _). discriminate.
    + assert (exists d', m = String c d') as [d' ->].
      { destruct rest as [|p r1]; [injection M as <- <-; eauto|]. destruct (Ascii.eqb p "."); [|injection M as <- <-; eauto].
        destruct (span is_dec r1). injection M as <- <-. cbn. eauto. }
      cbn in A |- *. intros [= -> _]. discriminate.
  - cbn. intros [= -> _]. discriminate.
Qed.
Lemma scan_float_app s a b : scan_float s = Some (a, b) -> exists junk, s = (junk ++ a ++ b)%string /\ (junk = "" \/ scan_decimal s = None).
Proof.
  unfold scan_float. destruct (scan_decimal s) as [[x y]|] eqn:D.
  - intros [= <- <-]. exists "". split; [now apply scan_decimal_app in D|now left].
  - intros E. apply scan_nan_app in E as [j ->]. exists j. split; [reflexivity|now right].
Qed.

Lemma scan_bracketed_app s n b : scan_bracketed s = Some (n, b) -> s = ("[" ++ n ++ "]" ++ b)%string /\ all_c is_word n = true /\ n <> "".
Proof.
  unfold scan_bracketed. destruct s as [|x [|c r]]; [discriminate..|]. destruct (Ascii.eqb_spec x "[") as [->|]; [|discriminate].
  cbn [andb]. destruct (is_alpha_ c) eqn:A; [|discriminate]. destruct (span is_word r) as [w [|e rest]] eqn:S; [discriminate|].
  destruct (Ascii.eqb_spec e "]") as [->|]; [|discriminate]. intros [= <- <-]. apply span_inv in S as (-> & W & _).
  split; [reflexivity|]. split; [|discriminate]. cbn [all_c]. unfold is_word at 1. now rewrite A, W.
Qed.
Lemma scan_empty_app s b : scan_empty_brackets s = Some b -> s = ("[]" ++ b)%string.
Proof.
  unfold scan_empty_brackets. destruct (String.prefix "[]" s) eqn:P; [|discriminate]. intros [= <-].
  apply prefix_spec in P as [u ->]. reflexivity.
Qed.

(** times: the text that was read is a time by itself *)
Lemma digits_n_app n : forall s a b, digits_n n s = Some (a, b) -> s = (a ++ b)%string /\ forall b', digits_n n (a ++ b') = Some (a, b').
Proof.
  induction n as [|n IH]; intros s a b; cbn [digits_n].
  - intros [= <- <-]. split; reflexivity.
  - destruct s as [|c s]; [discriminate|]. destruct (is_dec c) eqn:D; [|discriminate].
    destruct (digits_n n s) as [[x y]|] eqn:E; [|discriminate]. intros [= <- <-]. destruct (IH _ _ _ E) as [-> F].
    split; [reflexivity|]. intros b'. cbn [append]. rewrite D, F. reflexivity.
Qed.
Lemma field_app n sep s z b : field n sep s = Some (z, b) -> exists a, s = (a ++ b)%string /\ forall b', field n sep (a ++ b') = Some (z, b').
Proof.
  unfold field. destruct (digits_n n s) as [[d r]|] eqn:D; [|discriminate]. destruct (digits_n_app _ _ _ _ D) as [-> F].
  destruct (String.prefix sep r) eqn:P; [|discriminate]. intros [= <- <-]. apply prefix_spec in P as [u ->].
  exists (d ++ sep)%string. rewrite drop_app. split; [now rewrite app_str_assoc|]. intros b'. rewrite app_str_assoc, F, prefix_app, drop_app. reflexivity.
Qed.
Lemma zone_app s x b : time_zone s = Some (x, b) -> exists a, s = (a ++ b)%string /\ (forall b', time_zone (a ++ b') = Some (x, b')) /\
  exists c r, a = String c r /\ Ascii.eqb c "." = false.
Proof.
  unfold time_zone. destruct s as [|c s]; [discriminate|]. destruct (Ascii.eqb_spec c "Z") as [->|N].
  - intros [= <- <-]. exists "Z". split; [reflexivity|]. split; [reflexivity|]. now exists "Z"%char, "".
  - destruct (one_of "+-" c) eqn:O; [|discriminate].
    destruct (field 2 ":" s) as [[h r]|] eqn:F1; [|discriminate]. destruct (field_app _ _ _ _ _ F1) as (a1 & -> & G1).
    destruct (field 2 "" r) as [[m r']|] eqn:F2; [|discriminate]. destruct (field_app _ _ _ _ _ F2) as (a2 & -> & G2).
    intros [= <- <-]. exists (String c (a1 ++ a2)). split; [now cbn; rewrite app_str_assoc|]. split.
    + intros b'. cbn [append]. destruct (Ascii.eqb_spec c "Z"); [congruence|]. rewrite O, app_str_assoc, G1, G2. reflexivity.
    + exists c, (a1 ++ a2)%string. split; [reflexivity|]. destruct (Ascii.eqb_spec c ".") as [->|]; [discriminate|reflexivity].
Qed.
Definition time_fraction (s : string) : Z * string :=
  match s with
  | String c r => if Ascii.eqb c "." then match digits_n 9 r with Some (x, r) => (dec_val x, r) | None => (0%Z, s) end else (0%Z, s)
  | EmptyString => (0%Z, s)
  end.
Lemma fraction_app s ns b x b2 : time_fraction s = (ns, b) -> time_zone b = Some (x, b2) ->
  exists a, s = (a ++ b2)%string /\ forall b', exists r, time_fraction (a ++ b') = (ns, r) /\ time_zone r = Some (x, b').
Proof.
  intros F Z. destruct (zone_app _ _ _ Z) as (a & -> & G & c & r & -> & C). unfold time_fraction in F.
  assert (Plain : s = (String c r ++ b2)%string -> ns = 0%Z -> exists a, s = (a ++ b2)%string /\ forall b', exists r, time_fraction (a ++ b') = (ns, r) /\ time_zone r = Some (x, b')).
  { intros -> ->. exists (String c r). split; [reflexivity|]. intros b'. exists (String c r ++ b')%string. split; [|apply G].
    cbn [append time_fraction]. now rewrite C. }
  destruct s as [|d s]; [injection F as <- E; discriminate|]. destruct (Ascii.eqb_spec d ".") as [->|].
  - destruct (digits_n 9 s) as [[y r']|] eqn:D; [|injection F as <- E1 E2; apply Plain; [cbn; now rewrite <- E1, E2|reflexivity]].
    injection F as <- ->. destruct (digits_n_app _ _ _ _ D) as [-> H]. exists (String "." (y ++ String c r)). split; [cbn; now rewrite app_str_assoc|].
    intros b'. exists (String c r ++ b')%string. split; [|apply G]. cbn [append time_fraction]. 
    change (Ascii.eqb "." ".") with true. cbn match. rewrite app_str_assoc. cbn [append]. now rewrite H.
  - injection F as <- E1 E2. apply Plain; [cbn; now rewrite <- E1, E2|reflexivity].
Qed.
Lemma time_at_app s f b : time_at s = Some (f, b) -> exists a, s = (a ++ b)%string /\ time_at a = Some (f, "").
Proof.
  unfold time_at.
  destruct (field 4 "-" s) as [[y r1]|] eqn:F1; [|discriminate]. destruct (field_app _ _ _ _ _ F1) as (a1 & -> & G1).
  destruct (field 2 "-" r1) as [[mo r2]|] eqn:F2; [|discriminate]. destruct (field_app _ _ _ _ _ F2) as (a2 & -> & G2).
  destruct (field 2 "T" r2) as [[d r3]|] eqn:F3; [|discriminate]. destruct (field_app _ _ _ _ _ F3) as (a3 & -> & G3).
  destruct (field 2 ":" r3) as [[ho r4]|] eqn:F4; [|discriminate]. destruct (field_app _ _ _ _ _ F4) as (a4 & -> & G4).
  destruct (field 2 ":" r4) as [[mi r5]|] eqn:F5; [|discriminate]. destruct (field_app _ _ _ _ _ F5) as (a5 & -> & G5).
  destruct (field 2 "" r5) as [[se r6]|] eqn:F6; [|discriminate]. destruct (field_app _ _ _ _ _ F6) as (a6 & -> & G6).
  fold (time_fraction r6). destruct (time_fraction r6) as [ns r7] eqn:F7. destruct (time_zone r7) as [[[[zh zm] zn] r8]|] eqn:F8; [|discriminate].
  intros [= <- <-]. destruct (fraction_app _ _ _ _ _ F7 F8) as (a7 & -> & G7). destruct (G7 "") as (r & G8 & G9). rewrite app_str_nil_r in G8.
  exists (a1 ++ a2 ++ a3 ++ a4 ++ a5 ++ a6 ++ a7)%string. split; [now rewrite !app_str_assoc|].
  rewrite G1, G2, G3, G4, G5, G6. fold (time_fraction a7). rewrite G8, G9. reflexivity.
Qed.
Lemma scan_time_app s f b : scan_time s = Some (f, b) -> exists junk tok, s = (junk ++ tok ++ b)%string /\ time_literal tok f.
Proof.
  induction s as [|c s IH]; cbn [scan_time].
  - cbn. discriminate.
  - destruct (time_at (String c s)) as [x|] eqn:E.
    + intros [= ->]. destruct (time_at_app _ _ _ E) as (a & Q & T). exists "", a. split; [exact Q|exact T].
    + intros Z. destruct (IH Z) as (j & t & -> & T). exists (String c j), t. split; [reflexivity|exact T].
Qed.

(** slices *)
Lemma each_white_ne s : split_each_white s <> [].
Proof. destruct s as [|c x]; cbn [split_each_white]; [discriminate|]. destruct (is_white c); [discriminate|]. destruct (split_each_white x); discriminate. Qed.
Lemma each_white_words s : Forall (fun w => w <> "") (tl (split_each_white s)) -> split_white s = split_each_white s.
Proof.
  pose proof each_white_ne as NE.
  induction s as [|c s IH]; [reflexivity|]. cbn [split_each_white split_white]. destruct (is_white c) eqn:W.
  - cbn [tl]. intros H. destruct s as [|d s].
    + inversion H; congruence.
    + destruct (is_white d) eqn:Wd.
      * cbn [split_each_white] in H. rewrite Wd in H. inversion H; congruence.
      * rewrite IH; [reflexivity|]. specialize (NE (String d s)). destruct (split_each_white (String d s)); [congruence|]. now inversion H.
  - specialize (NE s). destruct (split_each_white s) as [|w ws] eqn:E; [congruence|]. cbn [tl]. intros H. rewrite IH by exact H. reflexivity.
Qed.
Lemma full_uint_lit w z : full_uint w = true -> parseUint 8 w = Some z -> unsigned_literal w z /\ (0 <= z < 256)%Z.
Proof.
  intros F P. unfold full_uint in F. destruct (scan_uint w) as [[x [|]]|] eqn:S; try discriminate.
  assert (x = w) as ->.
  { pose proof S as S'. unfold scan_uint, scan_num in S'. destruct (scan_radix w) as [[a b]|] eqn:R.
    - injection S' as -> ->. unfold scan_radix in R. destruct w as [|zz [|c r]]; try discriminate.
      destruct (Ascii.eqb_spec zz "0") as [->|]; [|discriminate]. cbn [negb] in R.
      destruct (one_of "bB" c); [|destruct (one_of "oO" c); [|destruct (one_of "xX" c); [|discriminate]]];
        apply some_digits_app' in R as (d & -> & ->); rewrite app_str_nil_r; reflexivity.
    - apply scan_dec_app in S'. now rewrite S', app_str_nil_r. }
  assert (G : get_int KUint8 w = Ok (VInt KUint8 z, "")).
  { unfold get_int. cbn [isigned ibits]. rewrite S. cbn [of_opt rbind]. rewrite P. reflexivity. }
  apply get_int_inv in G as (_ & R & t & E & L). rewrite app_str_nil_r in E. subst t. split; [exact L|].
  apply range_fits in R. unfold fits in R. cbn in R. lia.
Qed.
Lemma each_white_numbers s : forall zs, forallb full_uint (split_each_white s) = true ->
  all_some (map (parseUint 8) (split_each_white s)) = Some zs -> byte_numbers (s ++ "]") zs.
Proof.
  assert (Z : forall pre s zs, forallb full_uint (match split_each_white s with w :: ws => (pre ++ w)%string :: ws | [] => [pre] end) = true ->
     all_some (map (parseUint 8) (match split_each_white s with w :: ws => (pre ++ w)%string :: ws | [] => [pre] end)) = Some zs ->
     byte_numbers (pre ++ s ++ "]") zs).
  { intros pre x. revert pre. induction x as [|c x IH]; intros pre zs; cbn [split_each_white].
    - cbn [forallb map all_some append]. rewrite app_str_nil_r, andb_true_r. intros F. destruct (parseUint 8 pre) as [z|] eqn:P; [|discriminate].
      intros [= <-]. destruct (full_uint_lit _ _ F P). now apply bn_last.
    - destruct (is_white c) eqn:W.
      + cbn [forallb map all_some append]. rewrite app_str_nil_r. intros F. apply andb_true_iff in F as [F1 F2].
        destruct (parseUint 8 pre) as [z|] eqn:P; [|discriminate].
        destruct (all_some (map (parseUint 8) (split_each_white x))) as [zs'|] eqn:A; [|discriminate]. intros [= <-].
        destruct (full_uint_lit _ _ F1 P). apply bn_more; auto. apply (IH "" zs').
        * cbn [append]. pose proof (each_white_ne x). destruct (split_each_white x); [congruence|exact F2].
        * cbn [append]. pose proof (each_white_ne x). destruct (split_each_white x); [congruence|exact A].
      + intros F A. specialize (IH (pre ++ String c "")%string zs). rewrite !app_str_assoc in IH. cbn [append] in IH |- *. apply IH.
        * destruct (split_each_white x) as [|w ws]; [exact F|]. rewrite app_str_assoc. exact F.
        * destruct (split_each_white x) as [|w ws]; [exact A|]. rewrite app_str_assoc. exact A. }
  intros zs F A. pose proof (each_white_ne s). apply (Z "" s zs); cbn [append]; destruct (split_each_white s) eqn:E; congruence.
Qed.

(** The tables of [h], but perhaps [p], are the same in [h']. *)
Definition kept (p : ptr) (h h' : heap) : Prop :=
  List.length h <= List.length h' /\ forall q, q < List.length h -> q <> p -> nth_error h' q = nth_error h q.
Lemma kept_refl p h : kept p h h.
Proof. split; auto. Qed.
Lemma kept_trans p a b c : kept p a b -> kept p b c -> kept p a c.
Proof. intros [L1 K1] [L2 K2]. split; [lia|]. intros q Q N. rewrite K2 by (auto; lia). now apply K1. Qed.
Lemma grew_kept p h h' : grew h h' -> kept p h h'.
Proof. intros G. split; [now apply grew_len|]. intros q Q _. now apply grew_nth. Qed.
Lemma on_heap_kept {A} p (m : M A) h : kept p h (fst (on_heap p m h)).
Proof. split; [apply on_heap_len|]. intros q Q N. now apply on_heap_frame. Qed.

Lemma denotes_kept p h h' ct tok v : kept p h h' -> denotes h p ct tok v -> denotes h' p ct tok v.
Proof.
  intros [L K] D. destruct D; try (econstructor; eassumption).
  - pose proof (nth_error_some_lt _ _ _ H). eapply den_table; eauto. rewrite K; auto.
  - pose proof (nth_error_some_lt _ _ _ H). eapply den_nil_table; eauto. rewrite K; auto.
Qed.
Lemma row_kept p h h' cts s vs : kept p h h' -> row_text h p cts s vs -> row_text h' p cts s vs.
Proof. intros K. induction 1; [constructor|]. constructor; auto. eapply denotes_kept; eauto. Qed.

Lemma get_float_denotes F s f rest : fmt_ok F -> get_float F s = Ok (f, rest) ->
  exists junk tok, s = (junk ++ tok ++ rest)%string /\ float_text (f_prec F) (f_emax F) tok f /\ (junk = "" \/ tok = "NaN").
Proof.
  intros Fo. unfold get_float. destruct (scan_float s) as [[tok r]|] eqn:S; [|discriminate]. cbn [of_opt rbind].
  destruct (ParseFloat F tok) as [g|] eqn:P; [|discriminate]. cbn [of_opt rbind]. intros E.
  assert (g = f /\ r = rest /\ (g = S754_nan -> tok = "NaN")) as (-> & -> & N).
  { destruct g; try (injection E as <- <-; repeat split; congruence). destruct (tok =? "NaN")%string eqn:T; [|discriminate].
    apply String.eqb_eq in T. injection E as <- <-. auto. }
  destruct (scan_float_app _ _ _ S) as (j & -> & J). exists j, tok. split; [reflexivity|]. unfold scan_float in S.
  destruct (scan_decimal (j ++ tok ++ rest)) as [[tok' r']|] eqn:SD.
  - injection S as -> ->. destruct (scan_decimal_of _ _ _ SD) as (neg & x & k & y & D). split; [now apply (decimal_float_text F tok neg x k y)|].
    destruct J as [J|J]; [now left|discriminate].
  - assert (L : lower tok = "nan").
    { clear - S. revert S. generalize (j ++ tok ++ rest)%string as x. induction x as [|a x IH]; cbn [scan_nan]; [discriminate|].
      destruct x as [|b [|c x]]; [discriminate..|]. destruct (one_of "Nn" a && one_of "Aa" b && one_of "Nn" c) eqn:O; [|exact IH].
      intros [= <- _]. apply andb_true_iff in O as [O O3]. apply andb_true_iff in O as [O1 O2].
      unfold one_of in *. cbn in O1, O2, O3. rewrite orb_false_r in *.
      apply orb_true_iff in O1, O2, O3. rewrite !Ascii.eqb_eq in *. destruct O1 as [->| ->], O2 as [->| ->], O3 as [->| ->]; reflexivity. }
    unfold ParseFloat in P. rewrite L in P. cbn in P. injection P as <-. split; [left; auto|right; auto].
Qed.

Lemma get_slice_denotes h p ct s v rest : ct = "[]byte" \/ ct = "[]uint8" -> get_slice s = Ok (v, rest) ->
  exists tok, s = (tok ++ rest)%string /\ denotes h p ct tok v.
Proof.
  intros C. unfold get_slice. destruct (scan_slice s) as [[body r]|] eqn:S; [|discriminate]. cbn [of_opt rbind].
  destruct (all_some (map (parseUint 8) (splitSliceString body))) as [zs|] eqn:A; [|discriminate]. cbn [of_opt rbind]. intros [= <- <-].
  unfold scan_slice in S. destruct s as [|c s]; [discriminate|]. destruct (Ascii.eqb_spec c "[") as [->|]; [|discriminate].
  destruct (until "]" s) as [[b r']|] eqn:U; [|discriminate]. apply until_app in U as [-> _].
  destruct ((b =? "") || forallb full_uint (split_each_white b))%bool eqn:F; [|discriminate]. injection S as -> ->.
  unfold splitSliceString in A. destruct (body =? "")%string eqn:B.
  - apply String.eqb_eq in B. subst. injection A as <-. exists "[]". split; [reflexivity|]. now apply den_no_bytes.
  - cbn [orb] in F. rewrite each_white_words in A.
    + exists (String "[" (body ++ "]")). split; [cbn; now rewrite app_str_assoc|]. apply den_bytes; [exact C|]. now apply each_white_numbers.
    + rewrite forallb_forall in F. apply Forall_forall. intros w I. pose proof (each_white_ne body).
      assert (I' : In w (split_each_white body)) by (destruct (split_each_white body); [congruence|now right]).
      specialize (F w I'). intros ->. discriminate.
Qed.

Lemma get_table_denotes p s h h' v rest : p < List.length h -> get_table p s h = Ok (h', v, rest) ->
  exists tok, s = (tok ++ rest)%string /\ denotes h' p "*Table" tok v.
Proof.
  intros P. unfold get_table. destruct (scan_bracketed s) as [[n r]|] eqn:B.
  - destruct (NewTable n) as [t| |] eqn:N; try discriminate. cbn [rbind]. intros [= <- <- <-].
    apply scan_bracketed_app in B as (-> & _). exists ("[" ++ n ++ "]")%string. split; [cbn; now rewrite app_str_assoc|].
    apply NewTable_wf in N as (W & R & _ & Nil & Cn & Nm).
    eapply (den_table _ _ n (List.length h) (with_parent (Some p) t)).
    + rewrite nth_error_app2, Nat.sub_diag by lia. reflexivity.
    + unfold ptr in *. lia.
    + exact Nm.
    + exact Nil.
    + exact Cn.
    + exact R.
    + reflexivity.
  - destruct (scan_empty_brackets s) as [r|] eqn:S; [|discriminate]. cbn [of_opt rbind]. intros [= <- <- <-].
    apply scan_empty_app in S as ->. exists "[]". split; [reflexivity|].
    eapply (den_nil_table _ _ (List.length h) (with_parent (Some p) NewNilTable)); try reflexivity.
    + rewrite nth_error_app2, Nat.sub_diag by lia. reflexivity.
    + unfold ptr in *. lia.
Qed.

Lemma pure_ok {A B} h (r : res (A * B)) f h' v rest : pure h r f = Ok (h', v, rest) -> exists a, r = Ok (a, rest) /\ h' = h /\ v = f a.
Proof. unfold pure. destruct r as [[a b]| |]; cbn; try discriminate. intros [= <- <- <-]. eauto. Qed.

Lemma get_value_denotes p ct s h h' v rest : In ct all_types -> p < List.length h -> get_value p ct s h = Ok (h', v, rest) ->
  exists junk tok, s = (junk ++ tok ++ rest)%string /\ denotes h' p ct tok v /\ (junk = "" \/ ignores_text_before ct tok).
Proof.
  intros T P G. destruct (int_kind ct) as [k|] eqn:K.
  - destruct (C27_accepts_only_literals _ _ _ _ _ _ _ _ K G) as (-> & z & tok & -> & F & -> & L). exists "", tok. split; [reflexivity|].
    split; [now apply den_int|now left].
  - revert G. unfold get_value. rewrite K. types T; try discriminate K; cbn [String.eqb Ascii.eqb Bool.eqb orb]; intros G; try (apply pure_ok in G as (a & G & -> & ->)).
    + apply (get_slice_denotes h p "[]byte") in G as (tok & -> & D); [|now left]. exists "", tok. auto.
    + apply (get_slice_denotes h p "[]uint8") in G as (tok & -> & D); [|now right]. exists "", tok. auto.
    + destruct (scan_bool s) as [[tok r]|] eqn:S; [|discriminate]. cbn [of_opt] in G. injection G as -> ->.
      apply scan_bool_app in S as (-> & [->| ->]); [exists "", "true"|exists "", "false"]; (split; [reflexivity|split; [constructor|now left]]).
    + apply (get_float_denotes F32) in G as (j & tok & -> & D1 & J); [|left; reflexivity]. exists j, tok. split; [reflexivity|]. split; [now apply den_float32|].
      destruct J as [J|J]; [now left|right]. right. right. split; [now left|exact J].
    + apply (get_float_denotes F64) in G as (j & tok & -> & D1 & J); [|right; reflexivity]. exists j, tok. split; [reflexivity|]. split; [now apply den_float64|].
      destruct J as [J|J]; [now left|right]. right. right. split; [now right|exact J].
    + destruct (scan_rune s) as [[body r]|] eqn:S; [|discriminate]. cbn [of_opt rbind] in G. destruct (Nat.ltb _ _); [discriminate|].
      destruct (parseRune body) as [x|] eqn:R; [|discriminate]. cbn [of_opt rbind] in G. injection G as <- <-.
      apply scan_rune_app in S as (j & ->). exists j, (String squote (body ++ String squote "")).
      split; [cbn [append]; now rewrite app_str_assoc|]. split; [now apply den_rune|right; now left].
    + destruct (scan_string s) as [[tok r]|] eqn:S; [|discriminate]. cbn [of_opt rbind] in G. destruct (Unquote tok) as [x|] eqn:U; [|discriminate].
      cbn [of_opt rbind] in G. injection G as <- <-. apply scan_string_app in S as ->. exists "", tok. split; [reflexivity|]. split; [now apply den_string|now left].
    + apply get_table_denotes in G as (tok & -> & D); [|exact P]. exists "", tok. auto.
    + destruct (scan_time s) as [[f r]|] eqn:S; [|discriminate]. cbn [of_opt rbind] in G. destruct (parse_time f) as [t|] eqn:U; [|discriminate].
      cbn [of_opt rbind] in G. injection G as <- <-. apply scan_time_app in S as (j & tok & -> & L). exists j, tok. split; [reflexivity|].
      split; [apply den_time; apply time_written_spec; eauto|right; right; now left].
Qed.

Lemma trim_left_app f s : exists g, s = (g ++ trim_left f s)%string /\ all_c f g = true.
Proof.
  induction s as [|c s IH]; cbn [trim_left]; [now exists ""|]. destruct (f c) eqn:E; [|now exists ""].
  destruct IH as (g & Q & A). exists (String c g). cbn [append all_c]. rewrite E, A, <- Q. auto.
Qed.

Lemma get_values_row p : forall cts s h h' vs, Forall (fun ct => In ct all_types) cts -> wf_heap h -> p < List.length h ->
  get_values p cts s h = Ok (h', vs) -> row_text h' p cts s vs /\ grew h h'.
Proof.
  induction cts as [|ct cts IH]; intros s h h' vs T W P; cbn [get_values].
  - destruct (s =? "")%string eqn:E; [|discriminate]. apply String.eqb_eq in E. subst. intros [= <- <-]. split; [constructor|apply grew_refl].
  - destruct (s =? "")%string; [discriminate|]. inversion T as [|? ? Tc Tr]; subst. intros G.
    pose proof (get_value_ok p ct s h Tc W P) as O.
    destruct (get_value p ct s h) as [[[h1 v] rest]| |] eqn:V; cbn [rbind] in G; try discriminate.
    destruct O as (_ & _ & W1 & G1). apply get_value_denotes in V as (j & tok & -> & D & J); [|exact Tc|exact P].
    destruct (get_values p cts (trim_left is_blank rest) h1) as [[h2 vs']| |] eqn:R; cbn [rbind] in G; try discriminate. injection G as <- <-.
    pose proof (grew_len _ _ G1). destruct (IH _ _ _ _ Tr W1 ltac:(unfold ptr in *; lia) R) as [RT G2].
    destruct (trim_left_app is_blank rest) as (gap & Q & B). rewrite Q. split; [|eapply grew_trans; eauto].
    constructor; auto.
    + eapply denotes_kept; [|exact D]. now apply grew_kept.
    + now apply every_all.
Qed.
Lemma getRowSlice_row p line cns cts h h' vs : Forall (fun ct => In ct all_types) cts -> wf_heap h -> p < List.length h -> List.length cns = List.length cts ->
  getRowSlice p line cns cts h = Ok (h', vs) -> row_text h' p cts line vs /\ grew h h'.
Proof.
  intros T W P L. unfold getRowSlice. destruct (get_values p cts line h) as [[h1 vs1]| |] eqn:G; cbn [rbind]; try discriminate.
  rewrite L, Nat.ltb_irrefl, Nat.sub_diag. cbn [repeat]. rewrite app_nil_r. intros [= <- <-]. now apply get_values_row in G.
Qed.

(** ---------- lines ---------- *)

Lemma lead_white c r : is_white c = true -> split_white (String c r) = "" :: split_white (trim_left is_white (String c r)).
Proof.
  revert c. induction r as [|d r IH]; intros c W.
  - cbn [split_white trim_left]. rewrite W. reflexivity.
  - cbn [split_white]. rewrite W. cbn [trim_left]. rewrite W. destruct (is_white d) eqn:D.
    + specialize (IH d D). cbn [split_white] in IH. cbn [trim_left] in IH. rewrite D in *. exact IH.
    + cbn [split_white]. rewrite D. reflexivity.
Qed.
Lemma split_first s : forall w ws, split_white s = w :: ws -> w <> "" ->
  exists tail, s = (w ++ tail)%string /\ a_word w /\
    ((tail = "" /\ ws = []) \/ (starts_white tail /\ ws = split_white (trim_left is_white tail))).
Proof.
  induction s as [|c s IH]; intros w ws E N; cbn [split_white] in E; [injection E as <- <-; congruence|].
  destruct (is_white c) eqn:W.
  { pose proof (lead_white c s W) as L. cbn [split_white] in L. rewrite W in L. rewrite E in L. injection L as -> _. congruence. }
  pose proof (split_white_nonempty s) as NE. destruct (split_white s) as [|x xs] eqn:S; [congruence|]. injection E as <- <-.
  assert (C : every (fun c => negb (is_white c)) (String c "")) by (apply every_all; cbn [all_c]; now rewrite W).
  destruct x as [|d x].
  - exists s. split; [reflexivity|]. split; [split; [discriminate|exact C]|].
    destruct s as [|e s]; [injection S as <-; auto|]. right. destruct (is_white e) eqn:We.
    + split; [now exists e, s|]. rewrite (lead_white e s We) in S. now injection S as <-.
    + exfalso. cbn [split_white] in S. rewrite We in S. pose proof (split_white_nonempty s). destruct (split_white s); [congruence|discriminate].
  - destruct (IH _ _ eq_refl ltac:(discriminate)) as (tail & -> & [_ A] & T). exists tail. split; [reflexivity|]. split; [|exact T].
    split; [discriminate|]. constructor; [now rewrite W|exact A].
Qed.
Lemma trim_white s : exists g, s = (g ++ trim_left is_white s)%string /\ white g /\ (starts_white s -> g <> "").
Proof.
  destruct (trim_left_app is_white s) as (g & Q & A). exists g. split; [exact Q|]. split; [now apply every_all|].
  intros (c & r & -> & W) ->. cbn [append trim_left] in Q. rewrite W in Q.
  apply (f_equal String.length) in Q. cbn in Q. pose proof (trim_left_app is_white r) as (g & Q2 & _).
  apply (f_equal String.length) in Q2. rewrite length_app_str in Q2. lia.
Qed.
Lemma split_words : forall ls s, split_white s = ls -> Forall (fun w => w <> "") ls -> words ls s.
Proof.
  induction ls as [|w ws IH]; intros s E N; [now destruct (split_white_nonempty s)|]. inversion N as [|? ? Nw Ns]; subst.
  destruct (split_first s w ws E Nw) as (tail & -> & A & [[-> ->]|[S ->]]).
  - rewrite app_str_nil_r. now constructor.
  - destruct (trim_white tail) as (g & Q & G & GN). replace (w ++ tail)%string with (w ++ g ++ trim_left is_white tail)%string by (now rewrite <- Q).
    constructor; auto.
Qed.

Lemma IsValidColName_ne n : IsValidColName n = true -> n <> "".
Proof. intros V ->. discriminate. Qed.
Lemma IsValidColType_ne n : IsValidColType n = true -> n <> "".
Proof. intros V ->. discriminate. Qed.

Lemma getColNames_words line cns : getColNames (split_white line) = Ok cns -> words cns line.
Proof.
  unfold getColNames. destruct (forallb IsValidColName (split_white line)) eqn:F; [|discriminate]. intros [= <-].
  apply split_words; [reflexivity|]. rewrite forallb_forall in F. apply Forall_forall. intros w I. now apply IsValidColName_ne, F.
Qed.
Lemma getColTypes_words line cts : getColTypes line = Ok cts -> words cts line.
Proof.
  unfold getColTypes. destruct (forallb IsValidColType (split_white line)) eqn:F; [|discriminate]. intros [= <-].
  apply split_words; [reflexivity|]. rewrite forallb_forall in F. apply Forall_forall. intros w I. now apply IsValidColType_ne, F.
Qed.

(** A line of a table in struct shape *)
Lemma struct_line line cn ct ws : split_white line = cn :: ct :: ws -> IsValidColName cn = true -> IsValidColType ct = true ->
  exists tail, column_line cn ct tail line /\ ((tail = "" /\ ws = []) \/ (starts_white tail /\ ws = split_white (trim_left is_white tail))).
Proof.
  intros S Vn Vt. apply IsValidColName_ne in Vn. apply IsValidColType_ne in Vt.
  destruct (split_first line cn (ct :: ws) S Vn) as (t1 & -> & A1 & [[_ E]|[S1 E]]); [discriminate|]. symmetry in E.
  destruct (split_first _ ct ws E Vt) as (t2 & Q2 & A2 & R). destruct (trim_white t1) as (g & Q & G & GN). exists t2. split; [|exact R].
  exists g. split; [exact G|]. split; [auto|]. split; [exact A1|]. split; [exact A2|]. rewrite Q at 1. now rewrite Q2.
Qed.
Lemma until_skip c a b : has c a = false -> until c (a ++ b) = match until c b with Some (x, y) => Some ((a ++ x)%string, y) | None => None end.
Proof.
  induction a as [|d a IH]; cbn [append]; [now destruct (until c b) as [[? ?]|]|]. unfold has. cbn [list_ascii_of_string existsb].
  intros H. apply orb_false_iff in H as [H1 H2]. cbn [until]. rewrite Ascii.eqb_sym, H1, (IH H2). destruct (until c b) as [[? ?]|]; reflexivity.
Qed.
Lemma has_app c a b : has c (a ++ b) = has c a || has c b.
Proof. unfold has. induction a as [|d a IH]; cbn; [reflexivity|]. rewrite IH. apply orb_assoc. Qed.
Lemma white_no_eq g : white g -> has "=" g = false.
Proof.
  intros W. apply every_all in W. rewrite has_all_c. rewrite (all_c_impl is_white); [reflexivity| |exact W].
  intros c H. destruct (Ascii.eqb_spec "=" c) as [<-|]; [discriminate|reflexivity].
Qed.
Lemma type_no_eq ct : In ct all_types -> has "=" ct = false.
Proof. intros T. types T; reflexivity. Qed.
Lemma name_no_eq n : valid_name n -> has "=" n = false.
Proof.
  intros V. apply valid_name_bytes in V as [_ V]. rewrite has_all_c. rewrite (all_c_impl name_byte); [reflexivity| |exact V].
  intros c H. destruct (Ascii.eqb_spec "=" c) as [<-|]; [discriminate|reflexivity].
Qed.
Lemma space4_white s : exists g, s = (g ++ trim_left is_space4 s)%string /\ white g.
Proof.
  destruct (trim_left_app is_space4 s) as (g & Q & A). exists g. split; [exact Q|]. apply every_all. eapply all_c_impl; [|exact A].
  intros c. unfold is_space4, is_white, one_of. cbn [list_ascii_of_string existsb].
  rewrite !orb_true_iff, !Ascii.eqb_eq. intuition.
Qed.
Lemma not_in_has c s : has c s = false <-> ~ In c (list_ascii_of_string s).
Proof.
  unfold has. split.
  - intros H I. assert (existsb (Ascii.eqb c) (list_ascii_of_string s) = true); [|congruence].
    apply existsb_exists. exists c. split; [exact I|apply Ascii.eqb_refl].
  - intros N. destruct (existsb _ _) eqn:E; [|reflexivity]. apply existsb_exists in E as (d & I & Q). apply Ascii.eqb_eq in Q. now subst.
Qed.
(** The value after the equals sign *)
Lemma struct_data line cn ct tail pre after : column_line cn ct tail line -> valid_name cn -> In ct all_types ->
  until "=" line = Some (pre, after) -> starts_white tail ->
  exists mid sp, tail = (mid ++ "=" ++ sp ++ trim_left is_space4 after)%string /\ starts_white mid /\
    ~ In "="%char (list_ascii_of_string mid) /\ white sp /\
    (forall ws, split_white (trim_left is_white tail) = "=" :: ws -> white mid).
Proof.
  intros (gap & G & _ & _ & _ & ->) Vn Vt U St. rewrite !until_skip in U by (auto using name_no_eq, type_no_eq, white_no_eq).
  destruct (until "=" tail) as [[mid y]|] eqn:E; [|discriminate]. injection U as _ <-. pose proof E as U.
  apply until_app in E as [Q H]. destruct (space4_white y) as (sp & Qs & Ws). exists mid, sp. split; [rewrite <- Qs; exact Q|].
  split.
  { destruct St as (c & r & -> & W). destruct mid as [|d mid]; [cbn in Q; injection Q as -> _; discriminate|].
    injection Q as <- _. now exists c, mid. }
  split; [now apply not_in_has|]. split; [exact Ws|]. intros ws S.
  destruct (split_first _ _ _ S ltac:(discriminate)) as (t2 & Q2 & _). destruct (trim_white tail) as (g & Qg & Wg & _).
  rewrite Q2 in Qg. rewrite Qg, until_skip in U by (now apply white_no_eq). cbn in U. injection U as U _.
  rewrite app_str_nil_r in U. now subst.
Qed.

(** Lines with one field *)
Lemma fields_shape fuel : forall s, String.length s < fuel -> forall b ws, fields_from fuel s = (b, ws) ->
  (ws = [] -> b = false /\ spacey s) /\
  (forall w, ws = [w] -> if b then exists t, s = (w ++ t)%string /\ spacey t else exists a t, s = (a ++ w ++ t)%string /\ spacey t) /\
  (b = true -> ws <> []).
Proof.
  induction fuel as [|fuel IH]; intros s L b ws; [lia|]. cbn [fields_from]. destruct s as [|c s].
  - intros [= <- <-]. split; [split; [reflexivity|constructor]|]. split; [discriminate|discriminate].
  - destruct (strip_space space_encodings (String c s)) as [r|] eqn:S.
    + destruct (fields_from fuel r) as [b' ws'] eqn:F. cbn [snd]. intros [= <- <-]. apply strip_some in S as (e & I & Q).
      assert (Le : String.length r < fuel).
      { pose proof encodings_nonempty as NE. rewrite Forall_forall in NE. specialize (NE e I). apply (f_equal String.length) in Q. rewrite length_app_str in Q.
        destruct e; [congruence|]. cbn in Q, L. lia. }
      destruct (IH r Le _ _ F) as (H1 & H2 & H3). rewrite Q. split; [|split; [|discriminate]].
      * intros E. split; [reflexivity|]. apply sp_cons; [exact I|]. now apply H1.
      * intros w E. specialize (H2 w E). destruct b'.
        -- destruct H2 as (t & -> & T). exists e, t. split; [reflexivity|exact T].
        -- destruct H2 as (a & t & -> & T). exists (e ++ a)%string, t. split; [now rewrite app_str_assoc|exact T].
    + destruct (fields_from fuel s) as [b' ws'] eqn:F. cbn in L. destruct (IH s ltac:(lia) _ _ F) as (H1 & H2 & H3).
      unfold field_add. destruct b'.
      * destruct ws' as [|w ws']; [now destruct (H3 eq_refl)|]. intros [= <- <-]. split; [discriminate|]. split; [|discriminate].
        intros w0 [= <- ->]. destruct (H2 w eq_refl) as (t & -> & T). exists t. split; [reflexivity|exact T].
      * intros E. assert (b = true /\ ws = String c "" :: ws') as [-> ->] by (destruct ws'; injection E; auto).
        split; [discriminate|]. split; [|discriminate]. intros w0 [= <- ->]. destruct (H1 eq_refl) as [_ T]. exists s. split; [reflexivity|exact T].
Qed.
Lemma TrimSpace_tail s : strip_space (map srev space_encodings) (srev (TrimSpace s)) = None.
Proof.
  unfold TrimSpace. cbv zeta. rewrite srev_srev. set (l := trim_spaces (String.length s) space_encodings s).
  apply (trim_spaces_spec _ rev_encodings_nonempty (String.length l) (srev l)). now rewrite srev_len.
Qed.
Lemma spacey_last t : spacey t -> t = "" \/ exists a e, t = (a ++ e)%string /\ In e space_encodings.
Proof.
  induction 1 as [|e s I S IH]; [now left|]. right. destruct IH as [->|(a & e' & -> & I')].
  - exists "", e. split; [now rewrite app_str_nil_r|exact I].
  - exists (e ++ a)%string, e'. split; [now rewrite app_str_assoc|exact I'].
Qed.
Lemma Fields_one l w : Fields (TrimSpace l) = [w] -> TrimSpace l = w.
Proof.
  intros F. pose proof (TrimSpace_head l) as H. pose proof (TrimSpace_tail l) as T. set (s := TrimSpace l) in *. clearbody s.
  unfold Fields in F. destruct (fields_from (S (String.length s)) s) as [b ws] eqn:E. cbn [snd] in F. subst ws.
  destruct (fields_shape _ s (Nat.lt_succ_diag_r _) _ _ E) as (_ & A & _). specialize (A w eq_refl).
  destruct s as [|c s]; [discriminate|]. cbn [fields_from] in E. rewrite H in E.
  assert (b = true) as -> by (unfold field_add in E; destruct (fields_from _ s) as [[] [|]]; congruence).
  destruct A as (t & Q & Sp). destruct (spacey_last t Sp) as [->|(a & e & -> & I)]; [now rewrite Q, app_str_nil_r|].
  exfalso. rewrite Q in T. rewrite !srev_app_str, app_str_assoc in T.
  rewrite strip_none in T. specialize (T (srev e) (in_map srev _ _ I)). now rewrite prefix_app in T.
Qed.

Lemma split_last_app s a c : split_last s = Some (a, c) -> s = (a ++ String c "")%string.
Proof.
  revert a. induction s as [|d s IH]; intros a; cbn [split_last]; [discriminate|]. destruct (split_last s) as [[x y]|] eqn:E.
  - intros [= <- <-]. now rewrite (IH x eq_refl).
  - destruct s as [|e s]; [now intros [= <- <-]|]. exfalso. now apply (split_last_some e s).
Qed.
Lemma last_char_inj a b c d : (a ++ String c "" = b ++ String d "")%string -> a = b /\ c = d.
Proof.
  revert b. induction a as [|x a IH]; intros [|y b]; cbn; intros Q.
  - injection Q as ->. auto.
  - destruct b; discriminate.
  - destruct a; discriminate.
  - injection Q as -> E. destruct (IH _ E) as [-> ->]. auto.
Qed.
Lemma word_no_bracket n : all_c is_word n = true -> has "]" n = false.
Proof.
  intros V. rewrite has_all_c. rewrite (all_c_impl is_word); [reflexivity| |exact V].
  intros c H. destruct (Ascii.eqb_spec "]" c) as [<-|]; [discriminate|reflexivity].
Qed.
Lemma getTableName_text l n : getTableName (TrimSpace l) = Ok n -> IsValidTableName n = true -> TrimSpace l = ("[" ++ n ++ "]")%string.
Proof.
  unfold getTableName. destruct (Fields (TrimSpace l)) as [|w [|]] eqn:F; try discriminate. apply Fields_one in F. rewrite F.
  destruct (scan_bracketed w) as [[m rest]|] eqn:B; [|discriminate]. apply scan_bracketed_app in B as (-> & Wm & _).
  cbn [append]. destruct (split_last (m ++ String "]" rest)) as [[x c]|] eqn:S; [|discriminate]. intros [= ->] V.
  apply split_last_app in S. apply IsValidTableName_name, valid_name_bytes in V as [_ V].
  assert (N : has "]" n = false).
  { rewrite has_all_c. rewrite (all_c_impl name_byte); [reflexivity| |exact V].
    intros d H. destruct (Ascii.eqb_spec "]" d) as [<-|]; [discriminate|reflexivity]. }
  assert (rest = "") as ->.
  { destruct rest as [|d rest]; [reflexivity|]. exfalso.
    assert (Z : exists u e, String d rest = (u ++ String e "")%string).
    { pose proof (split_last_some d rest). destruct (split_last (String d rest)) as [[u e]|] eqn:X; [|congruence]. apply split_last_app in X. eauto. }
    destruct Z as (u & e & Z). rewrite Z in S. replace (m ++ String "]" (u ++ String e ""))%string with ((m ++ String "]" u) ++ String e "")%string in S by (now rewrite app_str_assoc).
    apply last_char_inj in S as [<- _]. rewrite has_app in N. unfold has at 2 in N. cbn in N. rewrite orb_true_r in N. discriminate. }
  apply last_char_inj in S as [<- _]. reflexivity.
Qed.
Lemma getTableSetName_text l n : getTableSetName (TrimSpace l) = Ok n -> TrimSpace l = ("[[" ++ n ++ "]]")%string.
Proof.
  unfold getTableSetName. destruct (Fields (TrimSpace l)) as [|w [|]] eqn:F; try discriminate. apply Fields_one in F. rewrite F.
  unfold scan_set_name. destruct w as [|b r]; [discriminate|]. destruct (Ascii.eqb_spec b "[") as [->|]; [|discriminate].
  destruct (scan_bracketed r) as [[m rest]|] eqn:B; [|discriminate]. destruct (rest =? "]")%string eqn:E; [|discriminate]. apply String.eqb_eq in E. subst.
  intros [= ->]. apply scan_bracketed_app in B as (-> & _). reflexivity.
Qed.

(** ---------- one line ---------- *)

Lemma on_current_full h0 p (m : M unit) g g' : binv h0 (ps_heap g) (ps_set g) -> List.length h0 <= p < List.length (ps_heap g) ->
  pres (List.length (ps_heap g)) m -> kn m -> on_current p m g = Ok g' ->
  exists h', g' = with_heap h' g /\ binv h0 h' (ps_set g) /\ kept p (ps_heap g) h' /\
    m (mkS (tab (ps_heap g) p) (List.length (ps_heap g)) []) = (fst (m (mkS (tab (ps_heap g) p) (List.length (ps_heap g)) [])), Ok tt) /\
    tab h' p = s_tab (fst (m (mkS (tab (ps_heap g) p) (List.length (ps_heap g)) []))) /\
    tname (tab h' p) = tname (tab (ps_heap g) p).
Proof.
  intros B P Pm K E. pose proof (on_current_ok h0 p m g B P Pm K) as O. pose proof (on_heap_kept p m (ps_heap g)) as Ke.
  destruct (on_heap_tab p m (ps_heap g) ltac:(lia)) as [_ R].
  unfold on_current in *. destruct (on_heap p m (ps_heap g)) as [h' r]. cbn [fst snd] in *. rewrite <- R in O.
  destruct r as [[]| |]; try discriminate. cbn [rbind] in *. injection E as <-. specialize (O ltac:(discriminate)).
  destruct O as (h2 & E & B2 & L & T & _ & N). assert (h2 = h') as -> by (destruct g; cbn in E; now injection E).
  exists h'. split; [reflexivity|]. split; [exact B2|]. split; [exact Ke|]. split; [rewrite R; now destruct (m _)|]. auto.
Qed.

(** The same columns and shape *)
Definition same_frame (t t' : table) : Prop :=
  tname t' = tname t /\ cnames t' = cnames t /\ ctypes t' = ctypes t /\ struct_shape t' = struct_shape t.

Lemma struct_value_spec h0 p line ls cn ct g g' : binv h0 (ps_heap g) (ps_set g) -> List.length h0 <= p < List.length (ps_heap g) ->
  tname (tab (ps_heap g) p) <> "" -> In ct all_types -> struct_shape (tab (ps_heap g) p) = true ->
  struct_value p line ls cn ct g = Ok g' ->
  exists h' v pre after, g' = with_heap h' g /\ binv h0 h' (ps_set g) /\ kept p (ps_heap g) h' /\ until "=" line = Some (pre, after) /\
    row_text h' p [ct] (trim_left is_space4 after) [v] /\ same_frame (tab (ps_heap g) p) (tab h' p) /\
    (rows (tab (ps_heap g) p) = [] -> List.length (ctypes (tab (ps_heap g) p)) = 1 -> rows (tab h' p) = [[v]]) /\
    (forall r0 z, rows (tab (ps_heap g) p) = [r0 ++ [z]] -> rows (tab h' p) = [r0 ++ [v]]).
Proof.
  intros B P N T Sh. unfold struct_value. destruct (until "=" line) as [[pre after]|] eqn:U; [|discriminate].
  destruct (Nat.ltb _ _); [discriminate|]. cbv zeta. set (t := tab (ps_heap g) p) in *.
  assert (S1 : forall g1, (if (RowCount t =? 0)%Z then let! g := on_current p AppendRow g in on_current p (SetStructShape true) g else Ok g) = Ok g1 ->
     exists h1, g1 = with_heap h1 g /\ binv h0 h1 (ps_set g) /\ kept p (ps_heap g) h1 /\ same_frame t (tab h1 p) /\
      (rows t = [] -> exists z, rows (tab h1 p) = [z] /\ List.length z = List.length (ctypes t)) /\ (rows t <> [] -> tab h1 p = t)).
  { intros g1. destruct (Z.eqb_spec (RowCount t) 0) as [E|E].
    - destruct (on_current p AppendRow g) as [g2| |] eqn:O1; cbn [rbind]; try discriminate. intros O2.
      apply (on_current_full h0) in O1 as (h2 & -> & B2 & K2 & R2 & T2 & _); auto using pres_AppendRow, kn_AppendRow.
      apply (on_current_full h0) in O2 as (h1 & -> & B1 & K1 & R1 & T1 & _); auto using pres_SetStructShape, kn_SetStructShape;
        [|rewrite with_heap_heap; destruct K2; lia].
      rewrite with_heap_heap in *. exists h1. split; [reflexivity|]. split; [exact B1|]. split; [eapply kept_trans; eauto|].
      fold t in T2, R2. assert (Wt : wf_table t) by (apply tab_wf, B).
      rewrite AppendRow_eq in T2 by exact Wt. cbn [s_tab] in T2. rewrite (name_not_nil t Wt N) in T2. cbn in T1.
      rewrite T1, T2. cbn. split; [unfold same_frame; cbn; auto|].
      assert (Rt : rows t = []) by (unfold RowCount in E; destruct (rows t); [reflexivity|cbn in E; lia]).
      split; [|congruence]. intros _. rewrite Rt. cbn. eexists. split; [reflexivity|].
      apply zeros_length.
    - intros [= <-]. exists (ps_heap g). split; [now destruct g|]. split; [exact B|]. split; [apply kept_refl|]. split; [unfold same_frame; auto|].
      split; [|reflexivity]. intros R. exfalso. apply E. unfold RowCount. now rewrite R. }
  destruct (if (RowCount t =? 0)%Z then _ else _) as [g1| |]; cbn [rbind]; try discriminate.
  destruct (S1 g1 eq_refl) as (h1 & -> & B1 & K1 & F1 & R1 & R1'). clear S1. rewrite with_heap_heap.
  assert (L1 : List.length (ps_heap g) <= List.length h1) by apply K1.
  pose proof (getRowSlice_ok p (trim_left is_space4 after) [cn] [ct] h1 ltac:(apply Forall_cons; [exact T|apply Forall_nil]) eq_refl (bi_wf _ _ _ B1) ltac:(lia)) as G.
  destruct (getRowSlice p _ [cn] [ct] h1) as [[h2 row]| |] eqn:GR; cbn [rbind]; try discriminate.
  apply getRowSlice_row in GR as [RT Gr]; [|apply Forall_cons; [exact T|apply Forall_nil]|apply B1|unfold ptr in *; lia|reflexivity].
  destruct G as (C & Pt & W2 & _). pose proof (grew_len _ _ Gr) as L2. rewrite with_heap_heap.
  inversion C as [|? v ? vs Cv Cvs]; subst. inversion Cvs; subst. rewrite (grew_tab h1 h2 p Gr) by lia.
  destruct (rows (tab h1 p)) as [|r0 rs] eqn:Rs; [discriminate|]. intros O.
  assert (B2 : binv h0 h2 (ps_set g)) by (eapply binv_grew; eauto).
  assert (Pv : ptr_lt (List.length h2) v) by (inversion Pt; auto).
  apply (on_current_full h0) in O as (h3 & -> & B3 & K3 & R3 & T3 & _); auto using kn_SetValByColIndex;
    [|rewrite with_heap_heap; lia|rewrite with_heap_heap; apply pres_SetValByColIndex; [apply Cv|exact Pv]].
  rewrite with_heap_heap in *. rewrite (grew_tab h1 h2 p Gr) in R3, T3 by lia.
  destruct (SetValByColIndex_eq (Z.of_nat (List.length r0) - 1) 0 v (mkS (tab h1 p) (List.length h2) [])) as [[_ E]|[_ E]];
    [apply tab_wf, B1| |rewrite E in R3; discriminate]. rewrite E in T3. cbn [fst] in T3. clear E R3.
  exists h3, v, pre, after. split; [reflexivity|]. split; [exact B3|].
  split; [eapply kept_trans; [exact K1|]; eapply kept_trans; [apply grew_kept; exact Gr|exact K3]|]. split; [reflexivity|].
  split; [eapply row_kept; eauto|].
  assert (Rw : forall a z, r0 :: rs = [a ++ [z]] -> rows (tab h3 p) = [a ++ [v]]).
  { intros a z Q. injection Q as -> ->. rewrite T3. unfold Proofs_Cells.written, put. cbn [s_tab on_tab with_rows rows]. rewrite Rs. rewrite app_length. cbn [List.length].
    replace (Z.to_nat (Z.of_nat (List.length a + 1) - 1)) with (List.length a) by lia. cbn. f_equal.
    clear. induction a as [|x a IH]; cbn; [reflexivity|]. now rewrite IH. }
  split; [rewrite T3; unfold Proofs_Cells.written, same_frame in *; cbn; exact F1|]. split.
  - intros Rt L. destruct (R1 Rt) as (z & Rz & Lz). rewrite L in Lz. destruct z as [|z0 [|]]; try discriminate. apply (Rw [] z0). exact Rz.
  - intros a z Q. apply (Rw a z). rewrite <- Rs. rewrite R1' by congruence. exact Q.
Qed.

(** A table that is being read: its place *)
Definition reading (h0 : heap) (g : parse_state) (p : ptr) : Prop :=
  binv h0 (ps_heap g) (ps_set g) /\ ps_table g = Some p /\ List.length h0 <= p < List.length (ps_heap g) /\ tname (tab (ps_heap g) p) <> "".
Lemma reading_heap h0 g p h' : reading h0 g p -> binv h0 h' (ps_set g) -> kept p (ps_heap g) h' -> tname (tab h' p) = tname (tab (ps_heap g) p) ->
  reading h0 (with_heap h' g) p.
Proof. intros (B & T & P & N) B' [L _] E. split; [exact B'|]. split; [exact T|]. rewrite with_heap_heap. split; [lia|congruence]. Qed.

Lemma struct_step h0 line g g' p : reading h0 g p -> ps_shape g = STRUCT_SHAPE -> col_names_line line g = Ok g' ->
  exists h' cn ct ws, g' = with_heap h' g /\ reading h0 g' p /\ kept p (ps_heap g) h' /\
    split_white line = cn :: ct :: ws /\ IsValidColName cn = true /\ IsValidColType ct = true /\
    tname (tab h' p) = tname (tab (ps_heap g) p) /\ struct_shape (tab h' p) = true /\
    cnames (tab h' p) = cnames (tab (ps_heap g) p) ++ [cn] /\ ctypes (tab h' p) = ctypes (tab (ps_heap g) p) ++ [ct] /\
    (ps_has_data g = false -> rows (tab (ps_heap g) p) = [] -> rows (tab h' p) = []) /\
    (ps_has_data g = true -> exists v pre after, until "=" line = Some (pre, after) /\ row_text h' p [ct] (trim_left is_space4 after) [v] /\
       (rows (tab (ps_heap g) p) = [] -> ctypes (tab (ps_heap g) p) = [] -> rows (tab h' p) = [[v]]) /\
       (forall r0, rows (tab (ps_heap g) p) = [r0] -> rows (tab h' p) = [r0 ++ [v]])).
Proof.
  intros (B & Tb & P & N) Sh. unfold col_names_line. cbv zeta. rewrite Sh. cbn [rbind]. rewrite Sh. unfold current. rewrite Tb. cbn [rbind].
  destruct (on_current p (SetStructShape true) g) as [g1| |] eqn:O1; cbn [rbind]; try discriminate.
  apply (on_current_full h0) in O1 as (h1 & -> & B1 & K1 & _ & T1 & N1); auto using pres_SetStructShape, kn_SetStructShape.
  destruct (Nat.ltb_spec (List.length (split_white line)) 2) as [|L]; [discriminate|].
  destruct (split_white line) as [|cn [|ct ws]] eqn:S; [cbn in L; lia..|]. cbn [at_ nth_error rbind].
  destruct (IsValidColName cn) eqn:Vn; cbn [negb]; [|discriminate]. destruct (IsValidColType ct) eqn:Vt; cbn [negb]; [|discriminate].
  destruct (on_current p (AppendCol cn ct) (with_heap h1 g)) as [g2| |] eqn:O2; cbn [rbind]; try discriminate.
  apply (on_current_full h0) in O2 as (h2 & -> & B2 & K2 & R2 & T2 & N2); auto using pres_AppendCol, kn_AppendCol;
    [|rewrite with_heap_heap; destruct K1; lia]. rewrite with_heap_heap in *.
  assert (W1 : wf_table (tab h1 p)) by (apply tab_wf, B1).
  rewrite AppendCol_eq in R2, T2 by exact W1. cbn [s_tab] in R2, T2. destruct (can_append_col (tab h1 p) cn ct); [|discriminate]. clear R2.
  cbn [fst] in T2. change (ps_has_data (with_heap h2 (with_heap h1 g))) with (ps_has_data g). cbn in T1.
  assert (K12 : kept p (ps_heap g) h2) by (eapply kept_trans; eauto).
  assert (F2 : tname (tab h2 p) = tname (tab (ps_heap g) p) /\ struct_shape (tab h2 p) = true /\
    cnames (tab h2 p) = cnames (tab (ps_heap g) p) ++ [cn] /\ ctypes (tab h2 p) = ctypes (tab (ps_heap g) p) ++ [ct]).
  { rewrite T2. cbn. rewrite T1. cbn. auto. }
  destruct F2 as (F2n & F2s & F2c & F2t).
  assert (Rw2 : (rows (tab (ps_heap g) p) = [] -> rows (tab h2 p) = []) /\ forall r0, rows (tab (ps_heap g) p) = [r0] -> exists z, rows (tab h2 p) = [r0 ++ [z]]).
  { rewrite T2. unfold col_added. cbn [s_tab rows]. rewrite T1. cbn [with_shape rows]. split; [intros ->; reflexivity|]. intros r0 ->. cbn [mapi]. eauto. }
  destruct (ps_has_data g) eqn:D.
  - intros SV. pose proof (IsValidColType_spec ct) as VS. apply (struct_value_spec h0) in SV as (h3 & v & pre & after & -> & B3 & K3 & U & RT & F3 & R3a & R3b);
      [|exact B2|rewrite with_heap_heap; destruct K12; lia|rewrite with_heap_heap; congruence|now apply VS|exact F2s].
    rewrite with_heap_heap in *. destruct F3 as (F3n & F3c & F3t & F3s). destruct Rw2 as [Ra Rb].
    exists h3, cn, ct, ws. split; [reflexivity|]. assert (K : kept p (ps_heap g) h3) by (eapply kept_trans; eauto).
    split; [apply (reading_heap h0 g p h3); [split; auto|exact B3|exact K|congruence]|]. split; [exact K|].
    split; [reflexivity|]. split; [exact Vn|]. split; [exact Vt|]. split; [congruence|]. split; [congruence|]. split; [congruence|]. split; [congruence|].
    split; [discriminate|]. intros _. exists v, pre, after. split; [exact U|]. split; [exact RT|]. split.
    + intros R0 C0. apply R3a; [auto|]. rewrite F2t, C0. reflexivity.
    + intros r0 R0. destruct (Rb r0 R0) as [z Z]. eapply R3b; eauto.
  - intros [= <-]. exists h2, cn, ct, ws. split; [reflexivity|].
    split; [apply (reading_heap h0 g p h2); [split; auto|exact B2|exact K12|congruence]|]. split; [exact K12|].
    split; [reflexivity|]. split; [exact Vn|]. split; [exact Vt|]. repeat (split; [assumption|]). split; [|discriminate].
    intros _. apply Rw2.
Qed.

Lemma first_step h0 line g g' p : reading h0 g p -> ps_shape g = UNDEFINED_SHAPE -> ps_expecting g = COL_NAMES -> cnames (tab (ps_heap g) p) = [] ->
  col_names_line line g = Ok g' ->
  (words (ps_names g') line /\ ps_expecting g' = COL_TYPES /\ ps_heap g' = ps_heap g /\ ps_set g' = ps_set g /\ ps_named g' = ps_named g /\ reading h0 g' p) \/
  (exists d ws, col_names_line line (with_shape_data STRUCT_SHAPE d g) = Ok g' /\ 
     (d = false -> ws = []) /\ (d = true -> exists ws', ws = "=" :: ws') /\ exists cn ct, split_white line = cn :: ct :: ws).
Proof.
  intros Rd Sh X Cn E. pose proof Rd as (B & Tb & P & N).
  unfold col_names_line in E. cbv zeta in E. rewrite Sh in E.
  destruct (getTableShape (split_white line)) as [[sh d]| |] eqn:GS; cbn [rbind] in E; try discriminate.
  cbn [ps_shape with_shape_data] in E.
  assert (Tab : (let! cns := getColNames (split_white line) in Ok (with_expecting COL_TYPES (with_names cns (with_shape_data sh d g)))) = Ok g' ->
    words (ps_names g') line /\ ps_expecting g' = COL_TYPES /\ ps_heap g' = ps_heap g /\ ps_set g' = ps_set g /\ ps_named g' = ps_named g /\ reading h0 g' p).
  { destruct (getColNames (split_white line)) as [cns| |] eqn:GN; cbn [rbind]; try discriminate. intros [= <-]. cbn.
    split; [now apply getColNames_words|]. repeat (split; [reflexivity|]). split; auto. }
  destruct sh; [left; auto| |left; auto]. right. exists d.
  assert (Q : exists cn ct ws, split_white line = cn :: ct :: ws /\ (d = false -> ws = []) /\ (d = true -> exists ws', ws = "=" :: ws')).
  { clear - GS. unfold getTableShape in GS. destruct (split_white line) as [|a [|b [|c [|e ls]]]]; cbn in GS; try discriminate.
    - destruct (_ && _); [|discriminate]. injection GS as <-. exists a, b, []. split; [reflexivity|]. split; [reflexivity|discriminate].
    - destruct (c =? "=")%string; discriminate.
    - destruct (_ && _ && _) eqn:O; [|discriminate]. injection GS as <-. apply andb_true_iff in O as [_ O]. apply String.eqb_eq in O. subst c.
      exists a, b, ("=" :: e :: ls). split; [reflexivity|]. split; [discriminate|]. eauto. }
  destruct Q as (cn & ct & ws & Q1 & Q2 & Q3). exists ws. split; [|eauto 6].
  unfold col_names_line. cbv zeta. cbn [ps_shape with_shape_data rbind]. exact E.
Qed.

Lemma types_step h0 line g g' p : reading h0 g p -> cnames (tab (ps_heap g) p) = [] ->
  col_types_line line g = Ok g' ->
  exists h', g' = with_expecting COL_ROWS (with_heap h' (with_types (ctypes (tab h' p)) g)) /\ reading h0 g' p /\ kept p (ps_heap g) h' /\ words (ctypes (tab h' p)) line /\
    tname (tab h' p) = tname (tab (ps_heap g) p) /\ cnames (tab h' p) = ps_names g /\
    (rows (tab (ps_heap g) p) = [] -> struct_shape (tab h' p) = struct_shape (tab (ps_heap g) p) /\ rows (tab h' p) = []).
Proof.
  intros Rd Cn. pose proof Rd as (B & Tb & P & N). unfold col_types_line. destruct (getColTypes line) as [cts| |] eqn:GT; cbn [rbind]; try discriminate.
  apply getColTypes_words in GT. cbv zeta. change (ps_names (with_types cts g)) with (ps_names g). destruct (Nat.eqb _ _); cbn [negb]; [|discriminate].
  unfold current. change (ps_table (with_types cts g)) with (ps_table g). rewrite Tb. cbn [rbind].
  destruct (on_current p (appendCols (ps_names g) cts) (with_types cts g)) as [g1| |] eqn:O; cbn [rbind]; try discriminate. intros [= <-].
  apply (on_current_full h0) in O as (h' & -> & B' & K & R & T & Nm); auto using pres_appendCols, kn_appendCols.
  change (ps_heap (with_types cts g)) with (ps_heap g) in *.
  assert (Wp : wf_table (tab (ps_heap g) p)) by (apply tab_wf, B).
  pose proof (appendCols_ok (ps_names g) cts (mkS (tab (ps_heap g) p) (List.length (ps_heap g)) []) Wp) as AC. rewrite R in AC.
  cbn [s_tab] in AC. rewrite <- T in AC. destruct AC as [A1 A2]. rewrite Cn in A1. cbn in A1.
  assert (Ct : ctypes (tab (ps_heap g) p) = []).
  { pose proof (wf_types_len _ Wp) as E. rewrite Cn in E. now destruct (ctypes (tab (ps_heap g) p)). }
  rewrite Ct in A2. cbn in A2. exists h'. split; [now rewrite A2|]. split.
  { split; [exact B'|]. cbn [ps_table ps_heap with_expecting with_heap with_types]. split; [exact Tb|]. split; [destruct K; lia|congruence]. }
  split; [exact K|]. split; [now rewrite A2|]. split; [exact Nm|]. split; [exact A1|]. intros Rw.
  assert (Z : forall cns cts s, wf_table (s_tab s) -> rows (s_tab s) = [] -> snd (mfor (combine cns cts) (fun p => AppendCol (fst p) (snd p)) s) = Ok tt ->
     struct_shape (s_tab (fst (mfor (combine cns cts) (fun p => AppendCol (fst p) (snd p)) s))) = struct_shape (s_tab s) /\
     rows (s_tab (fst (mfor (combine cns cts) (fun p => AppendCol (fst p) (snd p)) s))) = []).
  { clear. induction cns as [|cn cns IH]; intros [|ct cts] s W Rw; try (intros _; split; [reflexivity|exact Rw]).
    cbn [combine mfor]. unfold bind. cbn [fst snd]. rewrite AppendCol_eq by exact W.
    destruct (can_append_col (s_tab s) cn ct) eqn:C; [|discriminate]. intros E.
    destruct (IH cts (col_added cn ct s) (col_added_wf cn ct s W C)) as [I1 I2]; auto.
    unfold col_added. cbn. now rewrite Rw. }
  assert (Q : appendCols (ps_names g) cts (mkS (tab (ps_heap g) p) (List.length (ps_heap g)) []) =
     if Nat.eqb (List.length (ps_names g)) (List.length cts) then mfor (combine (ps_names g) cts) (fun p => AppendCol (fst p) (snd p)) (mkS (tab (ps_heap g) p) (List.length (ps_heap g)) [])
     else (mkS (tab (ps_heap g) p) (List.length (ps_heap g)) [], Err)).
  { unfold appendCols, bind, check. destruct (Nat.eqb _ _); reflexivity. }
  rewrite Q in T, R. destruct (Nat.eqb _ _); [|discriminate].
  specialize (Z (ps_names g) cts (mkS (tab (ps_heap g) p) (List.length (ps_heap g)) []) Wp Rw). rewrite R in Z. specialize (Z eq_refl).
  cbn [fst] in Z. rewrite <- T in Z. exact Z.
Qed.

Lemma rows_step h0 line g g' p : reading h0 g p -> cnames (tab (ps_heap g) p) = ps_names g -> ctypes (tab (ps_heap g) p) = ps_types g ->
  ps_expecting g = COL_ROWS -> col_rows_line line g = Ok g' ->
  exists h' row, g' = with_heap h' g /\ reading h0 g' p /\ kept p (ps_heap g) h' /\ row_text h' p (ps_types g) line row /\
    same_frame (tab (ps_heap g) p) (tab h' p) /\ rows (tab h' p) = rows (tab (ps_heap g) p) ++ [row].
Proof.
  intros Rd Cn Ct X E. pose proof Rd as (B & Tb & P & N).
  assert (V : inv h0 g) by (split; [exact B|]; unfold section_inv; rewrite X; exists p; auto).
  pose proof (col_rows_line_ok h0 line g V X) as [B' _]%(fun z => eq_ind _ (fun r => match r with Ok g' => inv h0 g' | Err => True | Panic => False end) z _ E).
  revert E. unfold col_rows_line. unfold current. rewrite Tb. cbn [rbind].
  assert (Wp : wf_table (tab (ps_heap g) p)) by (apply tab_wf, B).
  assert (G1 : Forall (fun ct => In ct all_types) (ps_types g)) by (rewrite <- Ct; apply Wp).
  assert (G2 : List.length (ps_names g) = List.length (ps_types g)) by (rewrite <- Ct, <- Cn; symmetry; apply Wp).
  pose proof (getRowSlice_ok p line (ps_names g) (ps_types g) (ps_heap g) G1 G2 (bi_wf _ _ _ B) ltac:(lia)) as G.
  destruct (getRowSlice p line (ps_names g) (ps_types g) (ps_heap g)) as [[h1 row]| |] eqn:GR; cbn [rbind]; try discriminate.
  apply getRowSlice_row in GR as [RT Gr]; [|exact G1|apply B|unfold ptr in *; lia|exact G2].
  destruct G as (C & Pr & W1 & _). pose proof (grew_len _ _ Gr) as L1.
  assert (T1 : tab h1 p = tab (ps_heap g) p) by (apply grew_tab; [exact Gr|lia]).
  destruct (on_current p (appendRowSlice row) (with_heap h1 g)) as [g1| |] eqn:O; cbn [rbind]; try discriminate.
  destruct (Nat.eqb _ _); cbn [negb]; [|discriminate]. intros [= ->].
  unfold on_current in O. rewrite with_heap_heap in O. pose proof (on_heap_kept p (appendRowSlice row) h1) as K.
  destruct (on_heap_tab p (appendRowSlice row) h1 ltac:(lia)) as [T2 _].
  destruct (on_heap p (appendRowSlice row) h1) as [h2 r]. destruct r as [[]| |]; try discriminate. cbn [rbind fst] in *. injection O as <-.
  assert (T3 : tab h2 p = with_rows (rows (tab h1 p) ++ [row]) (tab h1 p)) by exact T2. clear T2. rename T3 into T2. rewrite T1 in T2.
  assert (K2 : kept p (ps_heap g) h2) by (eapply kept_trans; [apply grew_kept; exact Gr|exact K]).
  exists h2, row. split; [reflexivity|]. split; [apply (reading_heap h0 g p h2); auto; now rewrite T2|]. split; [exact K2|].
  split; [exact (row_kept p h1 h2 _ _ _ K RT)|]. rewrite T2. split; [unfold same_frame; cbn; auto|reflexivity].
Qed.

(** ---------- all lines ---------- *)

Fixpoint run_lines (ls : list string) (g : parse_state) : res parse_state :=
  match ls with [] => Ok g | l :: r => let! (_, g) := parse_line l g in run_lines r g end.
Fixpoint no_comments (ls : list string) : list string :=
  match ls with
  | [] => []
  | [l] => [if comment (TrimSpace l) then "" else l]
  | l :: r => if comment (TrimSpace l) then no_comments r else l :: no_comments r
  end.
Lemma no_comments_significant ls : map TrimSpace (no_comments ls) = significant ls.
Proof.
  induction ls as [|l ls IH]; [reflexivity|]. cbn [no_comments significant]. destruct ls as [|l2 ls].
  - destruct (comment (TrimSpace l)); reflexivity.
  - destruct (comment (TrimSpace l)); [exact IH|]. cbn [map]. now rewrite IH.
Qed.
Lemma comment_line l g : comment (TrimSpace l) = true -> parse_line l g = Ok (true, g).
Proof. unfold parse_line, comment. destruct (TrimSpace l) as [|c r]; [discriminate|]. now intros ->. Qed.
Lemma continue_line l g g1 : comment (TrimSpace l) = false -> parse_line l g = Ok (true, g1) -> ps_expecting g1 = TABLE_NAME.
Proof.
  unfold parse_line, comment. destruct (TrimSpace l) as [|c r]; [destruct (ps_expecting g); discriminate|]. intros ->.
  destruct (ps_expecting g) eqn:X.
  - unfold table_name_line. destruct (if ps_named g then _ else _); [now intros [= <-]| |discriminate].
    destruct (getTableName _); cbn [rbind]; try discriminate. destruct (NewTable _); cbn [rbind]; try discriminate.
    cbv zeta. destruct (AppendTable _ _ _) as [? []]; cbn [rbind]; discriminate.
  - destruct (col_names_line _ _); cbn [rbind]; discriminate.
  - destruct (col_types_line _ _); cbn [rbind]; discriminate.
  - destruct (col_rows_line _ _); cbn [rbind]; discriminate.
Qed.
Lemma parse_run ls : forall g, parse_lines ls g = run_lines (no_comments ls) g.
Proof.
  induction ls as [|l ls IH]; intros g; [reflexivity|]. cbn [parse_lines no_comments]. destruct ls as [|l2 ls].
  - destruct (comment (TrimSpace l)) eqn:C.
    + rewrite comment_line by exact C. reflexivity.
    + cbn [run_lines]. destruct (parse_line l g) as [[b g1]| |] eqn:E; cbn [rbind]; try reflexivity. destruct b; [|reflexivity].
      apply continue_line in E; [|exact C]. unfold parse_line. change (TrimSpace "") with "". cbn match. rewrite E. destruct g1; cbn in *. now subst.
  - destruct (comment (TrimSpace l)) eqn:C.
    + rewrite comment_line by exact C. cbn [rbind]. apply IH.
    + cbn [run_lines]. destruct (parse_line l g) as [[b g1]| |]; cbn [rbind]; try reflexivity. apply IH.
Qed.

Definition kept_all (h h' : heap) : Prop := List.length h <= List.length h' /\ forall q, q < List.length h -> nth_error h' q = nth_error h q.
Lemma kept_all_kept p h h' : kept_all h h' -> kept p h h'.
Proof. intros [L K]. split; auto. Qed.

(** What the rest of the text adds to the table set *)
Definition adds (g : parse_state) (L : list string) (g' : parse_state) : Prop :=
  exists n os, document (ps_heap g') L n os /\ ts_tables (ps_set g') = ts_tables (ps_set g) ++ os /\
    ts_name (ps_set g') = match n with Some x => x | None => ts_name (ps_set g) end /\ (ps_named g = true -> n = None).

Definition finishes (g : parse_state) (p : ptr) (h' : heap) (body rest : list string) : Prop :=
  let t := tab (ps_heap g) p in let t' := tab h' p in
  tname t' = tname t /\
  match ps_expecting g with
  | TABLE_NAME => True
  | COL_NAMES =>
      (ps_shape g = UNDEFINED_SHAPE -> cnames t = [] -> rows t = [] -> struct_shape t = false ->
         block h' p t' body \/ exists names cns, body = [names] /\ rest = [] /\ words cns names /\ block h' p t' []) /\
      (ps_shape g = STRUCT_SHAPE -> ps_has_data g = false -> rows t = [] -> struct_shape t = true ->
         struct_shape t' = true /\ rows t' = [] /\ exists cns cts, cnames t' = cnames t ++ cns /\ ctypes t' = ctypes t ++ cts /\ more_columns cns cts body) /\
      (ps_shape g = STRUCT_SHAPE -> ps_has_data g = true -> struct_shape t = true -> forall r0, rows t = [r0] ->
         struct_shape t' = true /\ exists cns cts vs, rows t' = [r0 ++ vs] /\ cnames t' = cnames t ++ cns /\ ctypes t' = ctypes t ++ cts /\
           more_values h' p cns cts vs body)
  | COL_TYPES =>
      cnames t = [] -> rows t = [] ->
      (body = [] /\ rest = [] /\ t' = t) \/
      exists types ls, body = types :: ls /\ words (ctypes t') types /\ cnames t' = ps_names g /\ struct_shape t' = struct_shape t /\
        Forall2 (row_text h' p (ctypes t')) ls (rows t')
  | COL_ROWS =>
      cnames t = ps_names g -> ctypes t = ps_types g ->
      exists rs, same_frame t t' /\ rows t' = rows t ++ rs /\ Forall2 (row_text h' p (ps_types g)) body rs
  end.

Definition completes (h0 : heap) (g : parse_state) (L : list string) (g' : parse_state) : Prop :=
  match ps_expecting g with
  | TABLE_NAME => kept_all (ps_heap g) (ps_heap g') /\ adds g L g'
  | _ => forall p, reading h0 g p -> kept p (ps_heap g) (ps_heap g') /\
      exists body rest, L = body ++ rest /\ Forall (fun l => l <> "") body /\ (rest = [] \/ exists r, rest = "" :: r) /\
        adds g rest g' /\ finishes g p (ps_heap g') body rest
  end.

Lemma adds_same g1 g2 L g' : ps_set g1 = ps_set g2 -> ps_named g1 = ps_named g2 -> adds g1 L g' -> adds g2 L g'.
Proof. unfold adds. intros -> ->. auto. Qed.

Lemma finishes_now g p h' rest : tab h' p = tab (ps_heap g) p -> (ps_expecting g = COL_TYPES -> rest = []) ->
  wf_table (tab (ps_heap g) p) -> finishes g p h' [] rest.
Proof.
  intros E X W. unfold finishes. cbv zeta. rewrite E. split; [reflexivity|].
  destruct (ps_expecting g).
  - exact I.
  - split.
    + intros _ Cn Rw Sh. left. apply block_empty; auto. pose proof (wf_types_len _ W) as Q. rewrite Cn in Q. now destruct (ctypes _).
    + split.
      * intros _ _ Rw Sh. split; [exact Sh|]. split; [exact Rw|]. exists [], []. rewrite !app_nil_r. repeat split. constructor.
      * intros _ _ Sh r0 Rw. split; [exact Sh|]. exists [], [], []. rewrite !app_nil_r. repeat split; auto. constructor.
  - intros _ _. left. auto.
  - intros _ _. exists []. rewrite app_nil_r. unfold same_frame. repeat split. constructor.
Qed.


(** A line with the name of the table set or of a table *)
Lemma name_step h0 l g b g1 : inv h0 g -> table_name_line (TrimSpace l) g = Ok (b, g1) -> ps_expecting g = TABLE_NAME ->
  (exists n, TrimSpace l = ("[[" ++ n ++ "]]")%string /\ ps_named g = false /\ ps_named g1 = true /\ ps_heap g1 = ps_heap g /\
     ts_tables (ps_set g1) = ts_tables (ps_set g) /\ ts_name (ps_set g1) = n /\ ps_expecting g1 = TABLE_NAME) \/
  (exists t, TrimSpace l = ("[" ++ tname t ++ "]")%string /\ ps_heap g1 = ps_heap g ++ [t] /\ tab (ps_heap g1) (List.length (ps_heap g)) = t /\
     ts_tables (ps_set g1) = ts_tables (ps_set g) ++ [Some (List.length (ps_heap g))] /\ ts_name (ps_set g1) = ts_name (ps_set g) /\
     ps_named g1 = ps_named g /\ ps_expecting g1 = COL_NAMES /\ ps_shape g1 = UNDEFINED_SHAPE /\
     ps_table g1 = Some (List.length (ps_heap g)) /\
     cnames t = [] /\ rows t = [] /\ struct_shape t = false).
Proof.
  intros V E X. unfold table_name_line in E.
  destruct (if ps_named g then Err else getTableSetName (TrimSpace l)) as [n| |] eqn:Q; [|clear Q|discriminate].
  - left. destruct (ps_named g) eqn:Nm; [discriminate|]. apply getTableSetName_text in Q. injection E as <- <-. exists n. cbn. auto 8.
  - right. destruct (getTableName (TrimSpace l)) as [n| |] eqn:Tn; cbn [rbind] in E; try discriminate.
    pose proof (NewTable_spec n) as NS. destruct (NewTable n) as [t| |] eqn:N; cbn [rbind] in E; try discriminate.
    destruct (IsValidTableName n) eqn:Vn; [|discriminate]. apply getTableName_text in Tn; [|exact Vn].
    apply NewTable_wf in N as (Wt & R & Pa & Nil & Cn & Nm). cbv zeta in E. unfold AppendTable in E.
    destruct (find_table _ _ _); cbn [rbind] in E; [discriminate|]. injection E as <- <-. exists t. cbn [ps_heap ps_set ts_tables ts_name ps_named ps_expecting ps_shape ps_table].
    rewrite Nm. split; [exact Tn|]. split; [reflexivity|]. split.
    { unfold tab. rewrite app_nth2, Nat.sub_diag by lia. reflexivity. }
    injection NS as ->. auto 12.
Qed.

Theorem run_spec h0 : forall ls g g', Forall (fun l => comment (TrimSpace l) = false) ls -> inv h0 g -> run_lines ls g = Ok g' ->
  completes h0 g (map TrimSpace ls) g'.
Proof.
  induction ls as [|l ls IH]; intros g g' NC V.
  - cbn. intros [= <-].
    assert (A : adds g [] g).
    { exists None, []. rewrite app_nil_r. repeat split. constructor. }
    unfold completes. destruct (ps_expecting g) eqn:X; [split; [split; auto|exact A]|..];
    intros p Rd; (split; [apply kept_refl|]); exists [], []; (split; [reflexivity|]); (split; [constructor|]); (split; [now left|]); (split; [exact A|]);
    (apply finishes_now; auto; apply tab_wf, V).
  - cbn [run_lines map]. destruct (parse_line l g) as [[b g1]| |] eqn:E; cbn [rbind]; try discriminate. intros R.
    pose proof (parse_line_ok h0 l g V) as V1. rewrite E in V1. inversion NC as [|? ? C NC']; subst. specialize (IH g1 g' NC' V1 R). clear R NC NC'.
    pose proof (name_step h0 l g) as TN.
    unfold parse_line in E. set (line := TrimSpace l) in *. clearbody line. set (rest := map TrimSpace ls) in *. clearbody rest.
    assert (Blank : line = "" -> g1 = with_expecting TABLE_NAME g -> ps_expecting g <> COL_TYPES -> completes h0 g (line :: rest) g').
    { intros -> -> X. unfold completes in IH. cbn [ps_expecting with_expecting] in IH. destruct IH as [K (n & os & D & A)].
      assert (A2 : adds g ("" :: rest) g') by (exists n, os; split; [now constructor|exact A]).
      unfold completes. destruct (ps_expecting g) eqn:Xe; [split; [exact K|exact A2]|..]; try congruence;
      intros p Rd; (split; [now apply kept_all_kept|]); exists [], ("" :: rest); (split; [reflexivity|]); (split; [constructor|]); (split; [right; eauto|]); (split; [exact A2|]);
      (apply finishes_now; [|congruence|apply tab_wf, V]); apply tab_eq, K; apply Rd. }
    assert (NE : line <> "" -> completes h0 g (line :: rest) g'); [|destruct line as [|c line'] eqn:Ql;
      [destruct (ps_expecting g) eqn:X; try discriminate; injection E as <- <-; (apply Blank; auto; congruence)|apply NE; discriminate]].
    clear Blank. intros NE.
    assert (E2 : match ps_expecting g with
      | TABLE_NAME => table_name_line line g
      | COL_NAMES => let! g := col_names_line line g in Ok (false, g)
      | COL_TYPES => let! g := col_types_line line g in Ok (false, g)
      | COL_ROWS => let! g := col_rows_line line g in Ok (false, g)
      end = Ok (b, g1)).
    { destruct line as [|c line']; [congruence|]. unfold comment in C. rewrite C in E. exact E. }
    clear E. rename E2 into E. unfold completes. destruct (ps_expecting g) eqn:X.
    + (* a name *)
      destruct (TN b g1 V E eq_refl) as [(n & -> & Nf & Nt & Hh & Ht & Hn & Xe)|(t & -> & Hh & Tp & Ht & Hn & Nd & Xe & Sh & Pt & Cn & Rw & St)]; unfold completes in IH; rewrite Xe in IH.
      * rewrite Hh in IH. destruct IH as [K (m & os & D & A & B & Z)]. rewrite (Z Nt) in *. split; [exact K|].
        exists (Some n), os. split; [now constructor|]. split; [congruence|]. split; [congruence|]. congruence.
      * set (p := List.length (ps_heap g)) in *.
        assert (Lp : List.length (ps_heap g1) = S p) by (rewrite Hh, app_length; cbn; unfold p; lia).
        assert (Rd : reading h0 g1 p).
        { split; [apply V1|]. split; [exact Pt|]. pose proof (bi_len _ _ _ (proj1 V)). split; [unfold p in *; lia|].
          destruct V1 as [_ S1]. unfold section_inv in S1. rewrite Xe in S1. destruct S1 as (q & Q & _ & Nq & _). unfold ref, ptr in *. assert (q = p) as -> by congruence. exact Nq. }
        destruct (IH p Rd) as [[L K] (body & rs & -> & Nb & Er & (m & os & D & A & B & Z) & Fn & F)]. rewrite Xe in F. destruct F as [F _].
        rewrite Tp in *. specialize (F Sh Cn Rw St).
        assert (Np : nth_error (ps_heap g') p = Some (tab (ps_heap g') p)).
        { unfold tab. apply nth_error_nth'. lia. }
        split.
        { split; [lia|]. intros q Q. rewrite K; [rewrite Hh; now apply nth_error_app1|unfold p in *; lia|unfold p in *; lia]. }
        rewrite <- Fn. destruct F as [F|(names & cns & -> & -> & Wd & F)].
        { exists m, (Some p :: os). split; [now apply doc_table|]. rewrite A, Ht, <- app_assoc. split; [reflexivity|]. rewrite B, Hn. split; [reflexivity|]. rewrite <- Nd. exact Z. }
        { inversion D; subst. exists None, [Some p]. split; [eapply doc_cut; eauto|]. rewrite A, Ht, app_nil_r. split; [reflexivity|]. rewrite B, Hn. auto. }
    + (* column names, or a column in struct shape *)
      intros p Rd. destruct (col_names_line line g) as [g2| |] eqn:E1; cbn [rbind] in E; try discriminate. injection E as _ ->.
      pose proof (proj2 V) as SI. unfold section_inv in SI. rewrite X in SI. destruct SI as (q & Pq & Lq & Nq & Sh).
      assert (q = p) as -> by (destruct Rd as (_ & Z & _); unfold ref, ptr in *; congruence).
      assert (Struct : forall gs, col_names_line line gs = Ok g1 -> ps_shape gs = STRUCT_SHAPE -> reading h0 gs p -> ps_heap gs = ps_heap g -> ps_expecting gs = COL_NAMES ->
        ps_set gs = ps_set g -> ps_named gs = ps_named g ->
        kept p (ps_heap g) (ps_heap g') /\
        exists body rs cn ct ws, line :: rest = (line :: body) ++ rs /\ Forall (fun l => l <> "") body /\ (rs = [] \/ exists r, rs = "" :: r) /\ adds g rs g' /\
          tname (tab (ps_heap g') p) = tname (tab (ps_heap g) p) /\ split_white line = cn :: ct :: ws /\ IsValidColName cn = true /\ IsValidColType ct = true /\
          struct_shape (tab (ps_heap g1) p) = true /\
          (ps_has_data gs = false -> rows (tab (ps_heap g) p) = [] -> 
            struct_shape (tab (ps_heap g') p) = true /\ rows (tab (ps_heap g') p) = [] /\
            exists cns cts, cnames (tab (ps_heap g') p) = cnames (tab (ps_heap g) p) ++ cn :: cns /\ ctypes (tab (ps_heap g') p) = ctypes (tab (ps_heap g) p) ++ ct :: cts /\
              more_columns cns cts body) /\
          (ps_has_data gs = true -> exists v pre after, until "=" line = Some (pre, after) /\ row_text (ps_heap g') p [ct] (trim_left is_space4 after) [v] /\
            forall r0, (rows (tab (ps_heap g) p) = [r0] \/ rows (tab (ps_heap g) p) = [] /\ ctypes (tab (ps_heap g) p) = [] /\ r0 = []) ->
            struct_shape (tab (ps_heap g') p) = true /\
            exists cns cts vs, rows (tab (ps_heap g') p) = [r0 ++ v :: vs] /\
              cnames (tab (ps_heap g') p) = cnames (tab (ps_heap g) p) ++ cn :: cns /\ ctypes (tab (ps_heap g') p) = ctypes (tab (ps_heap g) p) ++ ct :: cts /\
              more_values (ps_heap g') p cns cts vs body)).
      { intros gs Es Shs Rs Hs Xs Ss Ns. destruct (struct_step h0 line gs g1 p Rs Shs Es) as (h1 & cn & ct & ws & Eg & R1 & K1 & Sp & Vc & Vt & Tn & Sst & Cn & Ct & D0 & D1).
        assert (X1 : ps_expecting g1 = COL_NAMES) by (now rewrite Eg). unfold completes in IH. rewrite X1 in IH.
        assert (H1 : ps_heap g1 = h1) by (now rewrite Eg). assert (S1 : ps_shape g1 = STRUCT_SHAPE) by (now rewrite Eg).
        assert (Dt : ps_has_data g1 = ps_has_data gs) by (now rewrite Eg).
        destruct (IH p R1) as [K2 (body & rs & -> & Nb & Er & A & Fn & F)]. rewrite X1 in F. destruct F as [_ [F0 F1]]. rewrite H1, Dt in *. rewrite Hs in *.
        split; [eapply kept_trans; eauto|]. exists body, rs, cn, ct, ws. split; [reflexivity|]. split; [exact Nb|]. split; [exact Er|]. split.
        { eapply adds_same; [| |exact A]; rewrite Eg; cbn; auto. }
        split; [congruence|]. split; [exact Sp|]. split; [exact Vc|]. split; [exact Vt|]. split; [exact Sst|]. split.
        - intros Dg Rw. destruct (F0 S1 Dg (D0 Dg Rw) Sst) as (P1 & P2 & cns & cts & P3 & P4 & P5). split; [exact P1|]. split; [exact P2|]. exists cns, cts.
          rewrite P3, P4, Cn, Ct, <- !app_assoc. auto.
        - intros Dg. destruct (D1 Dg) as (v & pre & after & U & Rt & Ra & Rb). exists v, pre, after. split; [exact U|]. split; [exact (row_kept p h1 (ps_heap g') _ _ _ K2 Rt)|].
          intros r0 Rw. assert (Rows1 : rows (tab h1 p) = [r0 ++ [v]]) by (destruct Rw as [Rw|(Rw & Cz & ->)]; [now apply Rb|now apply Ra]).
          destruct (F1 S1 Dg Sst _ Rows1) as (P1 & cns & cts & vs & P2 & P3 & P4 & P5). split; [exact P1|]. exists cns, cts, vs.
          rewrite P2, P3, P4, Cn, Ct, <- !app_assoc. auto. }
      destruct Sh as [Sh|[Sh Cn0]].
      * destruct (Struct g E1 Sh Rd eq_refl X eq_refl eq_refl) as [K (body & rs & cn & ct & ws & Eb & Nb & Er & A & Fn & Sp & Vc & Vt & S1 & D0 & D1)].
        split; [exact K|]. exists (line :: body), rs. split; [exact Eb|]. split; [now constructor|]. split; [exact Er|]. split; [exact A|]. split; [exact Fn|]. rewrite X.
        destruct (struct_line line cn ct ws Sp Vc Vt) as (tail & Cl & Tl).
        split; [congruence|]. split.
        { intros _ Dg Rw _. destruct (D0 Dg Rw) as (P1 & P2 & cns & cts & P3 & P4 & P5). split; [exact P1|]. split; [exact P2|]. exists (cn :: cns), (ct :: cts).
          split; [exact P3|]. split; [exact P4|]. econstructor; [exact Cl| |exact P5]. destruct Tl as [[-> _]|[Tl _]]; auto. }
        { intros _ Dg _ r0 Rw. destruct (D1 Dg) as (v & pre & after & U & Rt & Z). destruct (Z r0 (or_introl Rw)) as (P1 & cns & cts & vs & P2 & P3 & P4 & P5).
          split; [exact P1|]. exists (cn :: cns), (ct :: cts), (v :: vs). split; [exact P2|]. split; [exact P3|]. split; [exact P4|].
          assert (Vn : valid_name cn) by (now apply IsValidColName_spec). apply IsValidColType_spec in Vt.
          assert (Tw : starts_white tail).
          { destruct Tl as [[-> _]|[Tl _]]; [|exact Tl]. exfalso. destruct Cl as (gap & Wg & _ & _ & _ & El). rewrite El, app_str_nil_r in U.
            rewrite until_skip in U by (now apply name_no_eq). rewrite until_skip in U by (now apply white_no_eq).
            rewrite <- (app_str_nil_r ct), until_skip in U by (now apply type_no_eq). discriminate. }
          destruct (struct_data line cn ct tail pre after Cl Vn Vt U Tw) as (mid & sp & Q1 & Q2 & Q3 & Q4 & Q5).
          econstructor; [exact Cl| |exact P5]. exists sp, (trim_left is_space4 after). repeat (split; [eassumption|]). exact Rt. }
      * destruct (first_step h0 line g g1 p Rd Sh X Cn0 E1) as [(Wd & X1 & H1 & S1 & N1 & R1)|(d & ws0 & Es & Df & Dtr & cn0 & ct0 & Sp0)].
        { unfold completes in IH. rewrite X1 in IH. destruct (IH p R1) as [K (body & rs & -> & Nb & Er & A & Fn & F)]. rewrite X1, H1 in *.
          split; [exact K|]. exists (line :: body), rs. split; [reflexivity|]. split; [now constructor|]. split; [exact Er|]. split; [eapply adds_same; eauto|].
          split; [exact Fn|]. rewrite X. split; [|split; congruence]. intros _ _ Rw St.
          destruct (F Cn0 Rw) as [(-> & -> & Et)|(types & ls' & -> & Wt & Cns & St' & Rt)].
          - right. exists line, (ps_names g1). split; [reflexivity|]. split; [reflexivity|]. split; [exact Wd|]. rewrite Et. apply block_empty; auto.
            pose proof (wf_types_len _ (proj1 (tab_wf _ p (bi_wf _ _ _ (proj1 V))))) as Q. rewrite Cn0 in Q. now destruct (ctypes (tab (ps_heap g) p)).
          - left. apply block_table; auto; try congruence. }
        { assert (Cz : ctypes (tab (ps_heap g) p) = []).
          { pose proof (wf_types_len _ (proj1 (tab_wf _ p (bi_wf _ _ _ (proj1 V))))) as Q. rewrite Cn0 in Q. now destruct (ctypes (tab (ps_heap g) p)). }
          destruct (Struct _ Es eq_refl Rd eq_refl X eq_refl eq_refl) as [K (body & rs & cn & ct & ws & Eb & Nb & Er & A & Fn & Sp & Vc & Vt & S1 & D0 & D1)].
          rewrite Sp in Sp0. injection Sp0 as -> -> ->.
          split; [exact K|]. exists (line :: body), rs. split; [exact Eb|]. split; [now constructor|]. split; [exact Er|]. split; [exact A|]. split; [exact Fn|]. rewrite X.
          destruct (struct_line line cn0 ct0 ws0 Sp Vc Vt) as (tail & Cl & Tl).
          split; [|split; congruence]. intros _ _ Rw _. left. cbn [ps_has_data with_shape_data] in D0, D1. destruct d.
          - destruct (Dtr eq_refl) as (ws' & ->). destruct (D1 eq_refl) as (v & pre & after & U & Rt & Z). destruct (Z [] (or_intror (conj Rw (conj Cz eq_refl)))) as (P1 & cns & cts & vs & P2 & P3 & P4 & P5).
            rewrite Cn0 in P3. rewrite Cz in P4. destruct Tl as [[_ Tl]|[Tw Tl]]; [discriminate|].
            assert (Vn : valid_name cn0) by (now apply IsValidColName_spec). apply IsValidColType_spec in Vt.
            destruct (struct_data line cn0 ct0 tail pre after Cl Vn Vt U Tw) as (mid & sp & Q1 & Q2 & Q3 & Q4 & Q5).
            eapply (block_values _ _ _ cn0 ct0 cns cts v vs mid tail); eauto.
            exists sp, (trim_left is_space4 after). repeat (split; [eassumption|]). exact Rt.
          - specialize (Df eq_refl). subst ws0. destruct (D0 eq_refl Rw) as (P1 & P2 & cns & cts & P3 & P4 & P5). rewrite Cn0 in P3. rewrite Cz in P4.
            destruct Tl as [[-> _]|[Tw Tl]]; [|exfalso; symmetry in Tl; now apply split_white_nonempty in Tl].
            eapply block_struct; eauto. }
    + (* column types *)
      intros p Rd. destruct (col_types_line line g) as [g2| |] eqn:E1; cbn [rbind] in E; try discriminate. injection E as _ ->.
      pose proof (proj2 V) as SI. unfold section_inv in SI. rewrite X in SI. destruct SI as (q & Pq & Lq & Nq & Cn0).
      assert (q = p) as -> by (destruct Rd as (_ & Z & _); unfold ref, ptr in *; congruence).
      destruct (types_step h0 line g g1 p Rd Cn0 E1) as (h1 & Eg & R1 & K1 & Wd & Nm & Cn & Z).
      assert (X1 : ps_expecting g1 = COL_ROWS) by (rewrite Eg; auto). assert (H1 : ps_heap g1 = h1) by (apply (f_equal ps_heap) in Eg; exact Eg).
      assert (T1 : ps_types g1 = ctypes (tab h1 p)) by (apply (f_equal ps_types) in Eg; exact Eg). assert (N1 : ps_names g1 = ps_names g) by (apply (f_equal ps_names) in Eg; exact Eg).
      assert (Se : ps_set g1 = ps_set g) by (apply (f_equal ps_set) in Eg; exact Eg). assert (Ne : ps_named g1 = ps_named g) by (apply (f_equal ps_named) in Eg; exact Eg). clear Eg.
      unfold completes in IH. rewrite X1 in IH.
      destruct (IH p R1) as [K2 (body & rs & -> & Nb & Er & A & Fn & F)]. rewrite X1, H1, T1, N1 in *. clear IH. split; [eapply kept_trans; eauto|].
      exists (line :: body), rs. split; [reflexivity|]. split; [now constructor|]. split; [exact Er|]. split; [eapply adds_same; [exact Se|exact Ne|exact A]|].
      split; [congruence|]. rewrite X. intros _ Rw. right. destruct (Z Rw) as [Z1 Z2].
      destruct (F Cn eq_refl) as (rw & (F1 & F2 & F3 & F4) & Fr & Ft). rewrite Z2 in Fr. cbn in Fr.
      exists line, body. split; [reflexivity|]. rewrite F3, F2, F4, Fr. auto.
    + (* rows *)
      intros p Rd. destruct (col_rows_line line g) as [g2| |] eqn:E1; cbn [rbind] in E; try discriminate. injection E as _ ->.
      pose proof (proj2 V) as SI. unfold section_inv in SI. rewrite X in SI. destruct SI as (q & Pq & Lq & Nq & Cn0 & Ct0).
      assert (q = p) as -> by (destruct Rd as (_ & Z & _); unfold ref, ptr in *; congruence).
      destruct (rows_step h0 line g g1 p Rd Cn0 Ct0 X E1) as (h1 & row & Eg & R1 & K1 & Rt & (S1 & S2 & S3 & S4) & Rw).
      assert (X1 : ps_expecting g1 = COL_ROWS) by (rewrite Eg; auto). assert (H1 : ps_heap g1 = h1) by (apply (f_equal ps_heap) in Eg; exact Eg).
      assert (T1 : ps_types g1 = ps_types g) by (now rewrite Eg). assert (N1 : ps_names g1 = ps_names g) by (now rewrite Eg).
      assert (Se : ps_set g1 = ps_set g) by (apply (f_equal ps_set) in Eg; exact Eg). assert (Ne : ps_named g1 = ps_named g) by (apply (f_equal ps_named) in Eg; exact Eg). clear Eg.
      unfold completes in IH. rewrite X1 in IH.
      destruct (IH p R1) as [K2 (body & rs & -> & Nb & Er & A & Fn & F)]. rewrite X1, H1, T1, N1 in *. clear IH. split; [eapply kept_trans; eauto|].
      exists (line :: body), rs. split; [reflexivity|]. split; [now constructor|]. split; [exact Er|]. split; [eapply adds_same; [exact Se|exact Ne|exact A]|].
      split; [congruence|]. rewrite X. intros _ _. destruct F as (rw & (F1 & F2 & F3 & F4) & Fr & Ft); [congruence|congruence|].
      exists (row :: rw). split; [unfold same_frame; repeat split; congruence|]. split; [rewrite Fr, Rw, <- app_assoc; reflexivity|].
      constructor; [exact (row_kept p h1 (ps_heap g') _ _ _ K2 Rt)|exact Ft].
Qed.

Lemma no_comments_ok ls : Forall (fun l => comment (TrimSpace l) = false) (no_comments ls).
Proof.
  induction ls as [|l ls IH]; [constructor|]. cbn [no_comments]. destruct ls as [|l2 ls].
  - destruct (comment (TrimSpace l)) eqn:C; (constructor; [|constructor]); [reflexivity|exact C].
  - destruct (comment (TrimSpace l)) eqn:C; [exact IH|]. constructor; assumption.
Qed.
