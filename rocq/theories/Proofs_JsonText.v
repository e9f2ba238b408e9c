(** Proofs_JsonText.v -- JSON text that was written is read as the value it was written for. *)
From Coq Require Import ZArith NArith List String Ascii Bool SpecFloat Lia.
From Verif Require Import Base Model_Names Model_Table Model_Sort Model_Heap Model_TableSet Model_Lex Model_Float Model_Time
  Model_Print Model_Json Spec Spec_Walk Spec_Text Spec_Json Proofs_Lib Proofs_Lex Proofs_Num Proofs_Float Proofs_FloatText.
Import ListNotations.
Local Open Scope string_scope.
Local Open Scope Z_scope.

(** ---------- strings ---------- *)

Lemma unicode_valid r : unicode r -> valid_rune r = true.
Proof. unfold unicode, valid_rune. intros U. zb; auto; lia. Qed.

Lemma json_string_eq k c r : Ascii.eqb c dquote = false -> (code c <? 32) = false -> Ascii.eqb c bslash = false ->
  json_string (S k) (String c r) =
  match decode (String c r) with
  | Some (z, w) => match json_string k (drop w (String c r)) with Some (a, b) => Some (encode z ++ a, b) | None => None end
  | None => None
  end.
Proof. intros A B C. cbn [json_string]. now rewrite A, B, C. Qed.

Lemma json_string_end k r : json_string (S k) (String dquote r) = Some ("", r).
Proof. reflexivity. Qed.

Definition adds (x : string) (o : option (string * string)) : option (string * string) :=
  match o with Some (a, b) => Some (x ++ a, b) | None => None end.

Lemma json_string_rune k r t : valid_rune r = true -> 32 <= r -> r <> 34 -> r <> 92 ->
  json_string (S k) (encode r ++ t) = adds (encode r) (json_string k t).
Proof.
  intros V L N1 N2.
  assert (exists c u, encode r = String c u /\ 32 <= code c /\ code c <> 34 /\ code c <> 92) as (c & u & E & C1 & C2 & C3).
  { destruct (Z.ltb_spec r 128) as [H|H].
    - rewrite encode_ascii by lia. exists (chr r), "". rewrite code_chr by lia. auto.
    - destruct (encode_high_head r H V) as (c & u & E & C). exists c, u. repeat split; auto; lia. }
  pose proof (decode_encode r t V) as D. rewrite E in D |- *. cbn [append] in D |- *.
  rewrite json_string_eq.
  - rewrite D. assert (X : String c (u ++ t) = (String c u) ++ t) by reflexivity. rewrite X, drop_app. rewrite <- E. destruct (json_string k t) as [[? ?]|]; reflexivity.
  - rewrite eqb_code, code_dquote. now apply Z.eqb_neq.
  - now apply Z.ltb_ge.
  - rewrite eqb_code, code_bslash. now apply Z.eqb_neq.
Qed.

Lemma json_string_letter k e z t : json_escape e = Some z -> e <> "u"%char ->
  json_string (S k) (String bslash (String e t)) = adds (bytes [z]) (json_string k t).
Proof.
  intros J U. cbn [json_string]. replace (Ascii.eqb bslash dquote) with false by reflexivity. replace (code bslash <? 32) with false by reflexivity.
  replace (Ascii.eqb bslash bslash) with true by reflexivity. cbn match.
  replace (getu4 (String bslash (String e t))) with (@None (Z * string)).
  2:{ unfold getu4. replace (Ascii.eqb e "u") with false; [now rewrite andb_false_r|]. symmetry. now apply Ascii.eqb_neq. }
  rewrite J. destruct (json_string k t) as [[? ?]|]; reflexivity.
Qed.

Lemma json_string_u k r t : 0 <= r < 65536 -> valid_rune r = true ->
  json_string (S k) (String bslash (String "u" (hex 4 r)) ++ t) = adds (encode r) (json_string k t).
Proof.
  intros R V. cbn [append json_string]. replace (Ascii.eqb bslash dquote) with false by reflexivity. replace (code bslash <? 32) with false by reflexivity.
  replace (Ascii.eqb bslash bslash) with true by reflexivity. cbn match.
  unfold getu4. replace (Ascii.eqb bslash bslash && Ascii.eqb "u" "u")%bool with true by reflexivity.
  rewrite unhex_hex by lia. change (16 ^ Z.of_nat 4) with 65536. rewrite Z.mod_small by lia. rewrite Z.mul_0_l, Z.add_0_l.
  replace (high_surrogate r) with false.
  - destruct (json_string k t) as [[? ?]|]; reflexivity.
  - symmetry. unfold high_surrogate. apply valid_rune_range in V. apply andb_false_iff. destruct V as [_ [V|V]]; [left|right]; [apply Z.leb_gt|apply Z.ltb_ge]; lia.
Qed.

Lemma json_string_escaped ip k r t : json_rune ip r ->
  json_string (S k) (escape_rune ip dquote r ++ t) = adds (encode r) (json_string k t).
Proof.
  intros [U C]. pose proof (unicode_valid r U) as V. unfold escape_rune. rewrite code_dquote.
  destruct (Z.eq_dec r 34) as [->|N1].
  { exact (json_string_letter k dquote 34 t eq_refl ltac:(discriminate)). }
  destruct (Z.eq_dec r 92) as [->|N2].
  { exact (json_string_letter k bslash 92 t eq_refl ltac:(discriminate)). }
  rewrite (proj2 (Z.eqb_neq _ _) N1), (proj2 (Z.eqb_neq _ _) N2). cbn [orb].
  unfold is_print. destruct (Z.ltb_spec r 128) as [L|L].
  - destruct (Z.leb_spec 32 r); [destruct (Z.leb_spec r 126)|]; cbn [andb].
    + now apply json_string_rune.
    + exfalso. cbn [In] in C. lia.
    + cbn [In] in C. assert (I : r = 8 \/ r = 9 \/ r = 10 \/ r = 12 \/ r = 13) by lia.
      destruct I as [-> |[-> |[-> |[-> | ->]]]]; apply (json_string_letter k _ _ t); try reflexivity; discriminate.
  - destruct (ip r) eqn:I.
    + apply json_string_rune; auto; lia.
    + assert (R : r < 65536) by (cbn [In] in C; destruct C as [?|[?|[?|[_ ?]]]]; try lia; congruence).
      assert (X : escape_letter r = None).
      { destruct (escape_letter r) eqn:X; [|reflexivity]. apply escape_letter_inv in X. lia. }
      rewrite X. rewrite (proj2 (Z.ltb_ge r 32)) by lia. replace (r =? 127) with false by (symmetry; apply Z.eqb_neq; lia). rewrite V. cbn [orb].
      rewrite (proj2 (Z.ltb_lt r 65536)) by lia.
      now apply json_string_u; [lia|].
Qed.

Lemma json_string_rune_ch k c t : 32 <= code c < 127 -> c <> dquote -> c <> bslash ->
  json_string (S k) (String c t) = adds (String c "") (json_string k t).
Proof.
  intros R N1 N2. pose proof (json_string_rune k (code c) t) as H. rewrite encode_ascii, chr_code in H by lia. apply H; [apply valid_ascii; lia|lia| |].
  - intros E. apply N1, code_inj. now rewrite code_dquote.
  - intros E. apply N2, code_inj. now rewrite code_bslash.
Qed.

(** [body] is the text from after the opening quote to the closing quote of a JSON string *)
Definition string_text (body s : string) : Prop :=
  forall f rest, (String.length body <= f)%nat -> json_string f (body ++ rest) = Some (s, rest).

Lemma string_text_end : string_text (String dquote "") "".
Proof. intros [|f] rest F; [cbn in F; lia|reflexivity]. Qed.

Lemma quote_from_runes ip : forall rs k, Forall (json_rune ip) rs -> (String.length (String.concat "" (map encode rs)) <= k)%nat ->
  quote_from k ip dquote (String.concat "" (map encode rs)) = String.concat "" (map (escape_rune ip dquote) rs).
Proof.
  assert (CC : forall (x : string) l, String.concat "" (x :: l) = x ++ String.concat "" l).
  { intros x [|y l]; cbn; [now rewrite app_str_nil_r|reflexivity]. }
  induction rs as [|r rs IH]; intros k F L.
  - destruct k; reflexivity.
  - inversion F as [|? ? R F']; subst. cbn [map] in L |- *. rewrite CC in L |- *. rewrite CC. rewrite length_app_str in L.
    pose proof (encode_len r) as EL. destruct k as [|k]; [lia|]. pose proof (unicode_valid r (proj1 R)) as V.
    cbn [quote_from]. rewrite (decode_encode r _ V). rewrite drop_app, IH by (auto; lia). f_equal.
    destruct (Nat.eqb_spec (String.length (encode r)) 1) as [E|E]; [|reflexivity].
    destruct (Z.eqb_spec r RuneError) as [->|]; [discriminate E|reflexivity].
Qed.

Lemma string_text_add ip r body s : json_rune ip r -> string_text body s ->
  string_text (escape_rune ip dquote r ++ body) (encode r ++ s).
Proof.
  intros R T f rest L. rewrite length_app_str in L.
  assert (NE : (1 <= String.length (escape_rune ip dquote r))%nat).
  { pose proof (written_nonempty _ _ _ (escape_written ip dquote r (unicode_valid r (proj1 R)))). destruct (escape_rune ip dquote r); [congruence|cbn; lia]. }
  destruct f as [|f]; [lia|]. rewrite app_str_assoc, json_string_escaped by auto. rewrite T by lia. reflexivity.
Qed.

Theorem Quote_text ip s : json_text ip s -> exists body, Quote ip s = String dquote body /\ string_text body s.
Proof.
  assert (CC : forall (x : string) l, String.concat "" (x :: l) = x ++ String.concat "" l).
  { intros x [|y l]; cbn; [now rewrite app_str_nil_r|reflexivity]. }
  intros (rs & F & ->). unfold Quote. rewrite quote_from_runes by auto. eexists. split; [reflexivity|].
  induction F as [|r rs R F IH]; [exact string_text_end|]. cbn [map]. rewrite !CC, app_str_assoc. now apply string_text_add with (ip := ip).
Qed.

(** Text that is written without escapes *)
Definition plain_char (c : ascii) : bool := (32 <=? code c) && negb (Ascii.eqb c dquote) && negb (Ascii.eqb c bslash).
Lemma string_text_plain rs : Forall (fun r => valid_rune r = true /\ 32 <= r /\ r <> 34 /\ r <> 92) rs ->
  string_text (String.concat "" (map encode rs) ++ String dquote "") (String.concat "" (map encode rs)).
Proof.
  assert (CC : forall (x : string) l, String.concat "" (x :: l) = x ++ String.concat "" l).
  { intros x [|y l]; cbn; [now rewrite app_str_nil_r|reflexivity]. }
  induction 1 as [|r rs (V & L & N1 & N2) F IH]; [exact string_text_end|]. cbn [map]. rewrite !CC, app_str_assoc.
  intros f rest G. rewrite length_app_str in G. pose proof (encode_len r). destruct f as [|f]; [lia|].
  rewrite app_str_assoc, json_string_rune by auto. rewrite IH by lia. reflexivity.
Qed.

Theorem raw_text ip s : json_text ip s -> all_c plain_char s = true -> exists body, in_quotes s = String dquote body /\ string_text body s.
Proof.
  assert (CC : forall (x : string) l, String.concat "" (x :: l) = x ++ String.concat "" l).
  { intros x [|y l]; cbn; [now rewrite app_str_nil_r|reflexivity]. }
  intros (rs & F & ->) A. unfold in_quotes. eexists. split; [reflexivity|]. apply string_text_plain.
  induction F as [|r rs R F IH]; [constructor|]. cbn [map] in A. rewrite CC, all_c_app in A. apply andb_true_iff in A as [A1 A2].
  constructor; [|auto]. pose proof (unicode_valid r (proj1 R)) as V. split; [exact V|].
  destruct (Z.ltb_spec r 128) as [L|L]; [|lia]. apply valid_rune_range in V. rewrite encode_ascii in A1 by lia. cbn [all_c] in A1.
  rewrite andb_true_r in A1. unfold plain_char in A1. rewrite !andb_true_iff, !negb_true_iff in A1. destruct A1 as [[B1 B2] B3].
  rewrite eqb_code, code_chr in B2, B3 by lia. rewrite code_dquote in B2. rewrite code_bslash in B3.
  apply Z.eqb_neq in B2, B3. rewrite code_chr in B1 by lia. apply Z.leb_le in B1. auto.
Qed.

Lemma ascii_text ip s : all_c (fun c => (32 <=? code c) && (code c <? 127)) s = true -> json_text ip s.
Proof.
  intros A. exists (map code (list_ascii_of_string s)). induction s as [|c s IH]; cbn [all_c] in A.
  - split; [constructor|reflexivity].
  - apply andb_true_iff in A as [A1 A2]. apply andb_true_iff in A1 as [B1 B2]. apply Z.leb_le in B1. apply Z.ltb_lt in B2. destruct (IH A2) as [F E].
    cbn [list_ascii_of_string map]. split.
    + constructor; [|exact F]. split; [left; lia|left; lia].
    + rewrite encode_ascii, chr_code by lia. rewrite E at 1. destruct (list_ascii_of_string s); reflexivity.
Qed.

(** ---------- numbers ---------- *)

(** What follows a value in an array or an object *)
Definition ends (rest : string) : Prop :=
  match rest with EmptyString => True | String c _ => c = ","%char \/ c = "]"%char \/ c = "}"%char end.
Lemma ends_not f rest : f ","%char = false -> f "]"%char = false -> f "}"%char = false -> ends rest -> starts f rest = false.
Proof. destruct rest; cbn; [auto|]. intros A B C [-> |[-> | ->]]; assumption. Qed.

(** Digits without a superfluous zero *)
Definition whole (a : string) : bool := match a with EmptyString => false | String c r => negb (Ascii.eqb c "0") || (r =? "")%string end.

Lemma dec_of_nonneg_whole n : 0 <= n -> whole (dec_of_nonneg n) = true.
Proof.
  intros N. destruct (dec_of_nonneg_dec n N) as (_ & _ & NE). unfold dec_of_nonneg in *.
  destruct (dec_digits_spec (S (Z.to_nat (Z.log2 n))) n "") as (p & E & _ & Z1 & Z2).
  { split; [exact N|]. destruct (Z.eq_dec n 0) as [->|]; [vm_compute; reflexivity|].
    pose proof (Z.log2_nonneg n). rewrite Nat2Z.inj_succ, Z2Nat.id by lia. apply Z.log2_spec. lia. }
  rewrite app_str_nil_r in E. rewrite E in *. destruct (Z.eq_dec n 0) as [->|NZ]; [now rewrite Z2|].
  specialize (Z1 NZ). destruct p as [|c p]; [congruence|]. unfold starts in Z1. cbn [whole]. now rewrite Ascii.eqb_sym, Z1.
Qed.

Lemma json_number_read neg a p b rest : is_number a p b -> whole a = true -> (p = true -> b <> "") -> ends rest ->
  json_number (number neg a p b ++ rest) = Some (number neg a p b, rest).
Proof.
  intros (A & NA & B & PB) W PN E.
  assert (S0 : span is_dec (a ++ frac_text p b ++ rest) = (a, frac_text p b ++ rest)).
  { apply span_app; [exact A|]. destruct p; cbn [frac_text append]; [reflexivity|]. apply ends_not; auto; reflexivity. }
  unfold json_number, number.
  assert (X : (match sign_text neg (a ++ frac_text p b) ++ rest with
               | String c r => if Ascii.eqb c "-" then ("-", r) else ("", sign_text neg (a ++ frac_text p b) ++ rest)
               | EmptyString => ("", sign_text neg (a ++ frac_text p b) ++ rest)
               end) = (if neg then "-" else "", a ++ frac_text p b ++ rest)).
  { destruct neg; cbn [sign_text append]; [now rewrite app_str_assoc|]. rewrite app_str_assoc. destruct a as [|c a]; [congruence|]. cbn [append].
    cbn [all_c] in A. apply andb_true_iff in A as [A _]. apply dec_not_sign in A as (A & _ & _). now rewrite A. }
  rewrite X, S0. fold (whole a). rewrite W. cbn [negb].
  assert (Y : forall t, sign_text neg t = (if neg then "-" else "") ++ t) by (intros; now destruct neg).
  rewrite Y. destruct p; cbn [frac_text append] in *.
  - replace (Ascii.eqb "." ".") with true by reflexivity.
    rewrite span_app; [|exact B|apply ends_not; auto; reflexivity]. destruct b as [|d ds]; [now elim PN|].
    destruct rest as [|c rest]; [now rewrite app_str_nil_r|].
    replace (one_of "eE" c) with false by (destruct E as [-> |[-> | ->]]; reflexivity). now rewrite app_str_nil_r.
  - assert (b = "") by auto. subst b. destruct rest as [|c rest]; [reflexivity|].
    replace (Ascii.eqb c ".") with false by (destruct E as [-> |[-> | ->]]; reflexivity).
    replace (one_of "eE" c) with false by (destruct E as [-> |[-> | ->]]; reflexivity). reflexivity.
Qed.

Lemma dec_of_number z : exists neg a, dec_of z = number neg a false "" /\ is_number a false "" /\ whole a = true.
Proof.
  unfold dec_of, number. cbn [frac_text]. destruct (Z.ltb_spec z 0).
  - exists true, (dec_of_nonneg (- z)). destruct (dec_of_nonneg_dec (- z)) as (_ & A & N); [lia|]. rewrite app_str_nil_r.
    split; [reflexivity|]. split; [repeat split; auto|apply dec_of_nonneg_whole; lia].
  - exists false, (dec_of_nonneg z). destruct (dec_of_nonneg_dec z) as (_ & A & N); [lia|]. rewrite app_str_nil_r.
    split; [reflexivity|]. split; [repeat split; auto|apply dec_of_nonneg_whole; lia].
Qed.

Lemma format_short_whole F f : fmt_ok F -> valid_binary (f_prec F) (f_emax F) f = true -> finite f ->
  exists neg a p b, format_short F f = number neg a p b /\ is_number a p b /\ whole a = true /\ (p = true -> b <> "").
Proof.
  intros Fo V Fi. destruct f as [neg|neg| |neg m e]; try contradiction.
  - exists neg, "0", false, "". split; [reflexivity|]. repeat split; auto; discriminate.
  - apply (canon_valid F) in V; [|exact Fo]. cbn [format_short]. destruct (shortest F m e) as [x j] eqn:S.
    destruct (shortest_reads F m e x j Fo V S) as [Hx R]. unfold print_dec. destruct (Z.leb_spec 0 j) as [J|J].
    + assert (Hy : 0 <= x * 10 ^ j) by (apply Z.mul_nonneg_nonneg; [lia|apply Z.pow_nonneg; lia]).
      destruct (print_scaled_number (x * 10 ^ j) 0 Hy ltac:(lia)) as (E & N & D & L).
      exists neg, (int_part (x * 10 ^ j) 0), false, "". unfold number. cbn [frac_text]. rewrite app_str_nil_r.
      split; [reflexivity|]. split; [destruct N as (? & ? & _); repeat split; auto|]. split; [|discriminate]. now apply dec_of_nonneg_whole.
    + destruct (print_scaled_number x (- j) ltac:(lia) ltac:(lia)) as (E & N & D & L).
      exists neg, (int_part x (- j)), (0 <? - j), (frac_part x (- j)). unfold number. rewrite <- E. split; [reflexivity|]. split; [exact N|]. split.
      * unfold int_part. rewrite (proj2 (Z.leb_gt (- j) 0)) by lia. apply dec_of_nonneg_whole. apply Z.div_pos; [lia|apply Z.pow_pos_nonneg; lia].
      * intros _ B. rewrite B in L. cbn in L. lia.
Qed.

(** ---------- values ---------- *)

(** The text t is read as the value j wherever n more arrays and objects may be opened. *)
Definition reads (n : nat) (t : string) (j : json) : Prop :=
  (exists c r, t = String c r /\ json_space c = false /\ c <> "]"%char /\ c <> "}"%char) /\
  forall d rest, (n <= d)%nat -> ends rest -> json_value d (t ++ rest) = Some (j, rest).

Lemma reads_le n m t j : (n <= m)%nat -> reads n t j -> reads m t j.
Proof. intros L [A R]. split; [exact A|]. intros. apply R; auto. lia. Qed.

Lemma reads_string body s : string_text body s -> reads 0 (String dquote body) (JStr s).
Proof.
  intros T. split; [exists dquote, body; split; [reflexivity|repeat split; discriminate]|]. intros d rest _ _. cbn [append].
  assert (X : json_value d (String dquote (body ++ rest)) =
    match json_string (S (String.length (body ++ rest))) (body ++ rest) with Some (x, r) => Some (JStr x, r) | None => None end) by (destruct d; reflexivity).
  rewrite X, T by (rewrite length_app_str; lia). reflexivity.
Qed.
Corollary reads_Quote ip s : json_text ip s -> reads 0 (Quote ip s) (JStr s).
Proof. intros J. destruct (Quote_text ip s J) as (b & -> & T). now apply reads_string. Qed.
Corollary reads_raw ip s : json_text ip s -> all_c plain_char s = true -> reads 0 (in_quotes s) (JStr s).
Proof. intros J P. destruct (raw_text ip s J P) as (b & -> & T). now apply reads_string. Qed.

Lemma json_value_other d c r : Ascii.eqb c dquote = false -> Ascii.eqb c "[" = false -> Ascii.eqb c "{" = false -> 
  json_value d (String c r) =
  if String.prefix "true" (String c r) then Some (JBool true, drop 4 (String c r))
  else if String.prefix "false" (String c r) then Some (JBool false, drop 5 (String c r))
  else if String.prefix "null" (String c r) then Some (JNull, drop 4 (String c r))
  else match json_number (String c r) with Some (t, r) => Some (JNum t, r) | None => None end.
Proof. intros A B C. destruct d; cbn [json_value]; now rewrite A, B, C. Qed.

Lemma reads_bool (b : bool) : reads 0 (if b then "true" else "false") (JBool b).
Proof.
  split; [destruct b; eexists _, _; (split; [reflexivity|repeat split; discriminate])|]. intros d rest _ _.
  destruct b; cbn [append]; (rewrite json_value_other; [|reflexivity..]); cbn [String.prefix]; repeat (match goal with |- context [if ascii_dec ?a ?b then _ else _] => destruct (ascii_dec a b); try congruence end);
   destruct rest; reflexivity.
Qed.
Lemma reads_null : reads 0 "null" JNull.
Proof.
  split; [eexists _, _; (split; [reflexivity|repeat split; discriminate])|]. intros d rest _ _.
  cbn [append]; (rewrite json_value_other; [|reflexivity..]); cbn [String.prefix]; repeat (match goal with |- context [if ascii_dec ?a ?b then _ else _] => destruct (ascii_dec a b); try congruence end);
   destruct rest; reflexivity.
Qed.
Lemma reads_number neg a p b : is_number a p b -> whole a = true -> (p = true -> b <> "") -> reads 0 (number neg a p b) (JNum (number neg a p b)).
Proof.
  intros N W P.
  assert (exists c r, number neg a p b = String c r /\ (c = "-"%char \/ is_dec c = true)) as (c & r & E & C).
  { unfold number. destruct neg; cbn [sign_text]; [eauto|]. destruct N as (A & NA & _). destruct a as [|c a]; [congruence|].
    cbn [all_c] in A. apply andb_true_iff in A as [A _]. cbn [append]. eauto. }
  assert (K : forall x, is_dec x = false -> x <> "-"%char -> Ascii.eqb c x = false).
  { intros x X1 X2. destruct (Ascii.eqb_spec c x); [subst x|reflexivity]. destruct C; congruence. }
  split.
  - exists c, r. split; [exact E|]. repeat split.
    + unfold json_space, one_of. cbn [list_ascii_of_string existsb]. rewrite !K by (try reflexivity; discriminate). reflexivity.
    + intros ->. discriminate (K "]"%char eq_refl ltac:(discriminate)).
    + intros ->. discriminate (K "}"%char eq_refl ltac:(discriminate)).
  - intros d rest _ Ends. pose proof (json_number_read neg a p b rest N W P Ends) as J. rewrite E in *. cbn [append] in *.
    rewrite json_value_other by (apply K; [reflexivity|discriminate]).
    assert (L : forall x t, is_dec x = false -> x <> "-"%char -> String.prefix (String x t) (String c (r ++ rest)) = false).
    { intros x t X1 X2. cbn [String.prefix]. destruct (ascii_dec x c); [|reflexivity]. subst x. destruct C; congruence. }
    rewrite !L by (try reflexivity; discriminate). now rewrite J.
Qed.

Lemma skip_not c r : json_space c = false -> skip (String c r) = String c r.
Proof. intros S. unfold skip. cbn [trim_left]. now rewrite S. Qed.
Lemma reads_skip n t j rest : reads n t j -> skip (t ++ rest) = t ++ rest.
Proof. intros [(c & r & -> & S & _) _]. cbn [append]. now apply skip_not. Qed.

Lemma json_elements_read n value : (forall t j rest, reads n t j -> ends rest -> value (t ++ rest) = Some (j, rest)) ->
  forall ts js fuel rest, Forall2 (reads n) ts js -> ts <> [] -> (List.length ts <= fuel)%nat ->
  json_elements value fuel (String.concat "," ts ++ String "]" rest) = Some (js, rest).
Proof.
  intros V ts js fuel rest F. revert fuel. induction F as [|t j ts js R F IH]; intros fuel NE L; [congruence|].
  destruct fuel as [|fuel]; [cbn in L; lia|]. cbn [json_elements].
  destruct ts as [|t2 ts].
  - inversion F; subst. cbn [String.concat]. rewrite (reads_skip _ _ _ _ R), (V _ _ _ R) by (cbn; auto).
    rewrite skip_not by reflexivity. reflexivity.
  - assert (X : String.concat "," (t :: t2 :: ts) = t ++ String "," (String.concat "," (t2 :: ts))) by reflexivity.
    rewrite X, app_str_assoc. cbn [append].
    rewrite (reads_skip _ _ _ _ R), (V _ _ _ R) by (cbn; auto). rewrite skip_not by reflexivity.
    replace (Ascii.eqb "," "]") with false by reflexivity. replace (Ascii.eqb "," ",") with true by reflexivity.
    rewrite IH; [reflexivity|discriminate|cbn [List.length] in *; lia].
Qed.

Lemma concat_longer s ts : Forall (fun t => t <> "") ts -> (List.length ts <= String.length (String.concat s ts))%nat.
Proof.
  induction 1 as [|t ts N F IH]; [cbn; lia|]. assert (1 <= String.length t)%nat by (destruct t; [congruence|cbn; lia]).
  destruct ts as [|t2 ts]; [cbn; lia|]. change (String.concat s (t :: t2 :: ts)) with (t ++ s ++ String.concat s (t2 :: ts)). rewrite !length_app_str.
  cbn [List.length] in *. lia.
Qed.

Theorem reads_array n ts js : Forall2 (reads n) ts js -> reads (S n) ("[" ++ String.concat "," ts ++ "]") (JArr js).
Proof.
  intros F. split; [eexists _, _; split; [reflexivity|repeat split; discriminate]|]. intros d rest L E. destruct d as [|d]; [lia|].
  cbn [append]. rewrite app_str_assoc. cbn [append].
  assert (X : forall u, json_value (S d) (String "[" u) = json_array (json_value d) u) by reflexivity. rewrite X. clear X.
  unfold json_array. destruct F as [|t j ts js R F].
  - reflexivity.
  - set (body := String.concat "," (t :: ts)).
    assert (B : exists c r, body = String c r /\ json_space c = false /\ c <> "]"%char).
    { destruct R as [(c & r & -> & S & N & _) _]. exists c. unfold body. destruct ts; [exists r|eexists]; (split; [reflexivity|auto]). }
    destruct B as (c & r & B & S & N). rewrite B at 1. cbn [append]. rewrite skip_not by exact S.
    destruct (Ascii.eqb_spec c "]"); [congruence|].
    unfold body at 2. rewrite (json_elements_read n (json_value d)) with (js := j :: js); auto.
    + intros t' j' rest' [_ R'] E'. apply R'; auto. lia.
    + discriminate.
    + rewrite length_app_str. pose proof (concat_longer "," (t :: ts)) as CL. fold body in CL. apply Nat.le_trans with (String.length body); [apply CL|lia].
      assert (G : Forall2 (reads n) (t :: ts) (j :: js)) by (constructor; auto). clear - G. induction G as [|? ? ? ? [(c & r & -> & _) _]]; constructor; auto. discriminate.
Qed.

(** A member of an object: the text of the key, the key, the text of the value, the value *)
Record member := mkMember { mb_key_text : string; mb_key : string; mb_text : string; mb_value : json }.
Definition member_ok (n : nat) (m : member) : Prop :=
  (exists body, mb_key_text m = String dquote body /\ string_text body (mb_key m)) /\ reads n (mb_text m) (mb_value m).
Definition member_text (m : member) : string := mb_key_text m ++ ":" ++ mb_text m.
Definition members_of (ms : list member) (m0 : list (string * json)) : list (string * json) :=
  fold_left (fun a m => jput (mb_key m) (mb_value m) a) ms m0.

Lemma json_members_read n value : (forall t j rest, reads n t j -> ends rest -> value (t ++ rest) = Some (j, rest)) ->
  forall ms fuel rest m0, Forall (member_ok n) ms -> ms <> [] -> (List.length ms <= fuel)%nat ->
  json_members value fuel (String.concat "," (map member_text ms) ++ String "}" rest) m0 = Some (members_of ms m0, rest).
Proof.
  intros V ms fuel rest m0 F. revert fuel m0. induction F as [|m ms ((body & KT & T) & R) F IH]; intros fuel m0 NE L; [congruence|].
  destruct fuel as [|fuel]; [cbn in L; lia|]. cbn [json_members].
  assert (X : exists after, String.concat "," (map member_text (m :: ms)) ++ String "}" rest = String dquote (body ++ String ":" (mb_text m ++ after))
            /\ ends after /\ (ms = [] -> after = String "}" rest) /\ (ms <> [] -> after = String "," (String.concat "," (map member_text ms) ++ String "}" rest))).
  { destruct ms as [|m2 ms].
    - exists (String "}" rest). split; [|repeat split; cbn; auto; congruence]. cbn [map String.concat]. unfold member_text. rewrite KT. cbn [append]. rewrite !app_str_assoc. reflexivity.
    - exists (String "," (String.concat "," (map member_text (m2 :: ms)) ++ String "}" rest)). split; [|repeat split; cbn; auto; congruence].
      change (String.concat "," (map member_text (m :: m2 :: ms))) with (member_text m ++ String "," (String.concat "," (map member_text (m2 :: ms)))).
      unfold member_text at 1. rewrite KT. cbn [append]. rewrite !app_str_assoc. reflexivity. }
  destruct X as (after & -> & E & A1 & A2). rewrite skip_not by reflexivity. replace (Ascii.eqb dquote dquote) with true by reflexivity. cbn [negb].
  rewrite T by (rewrite length_app_str; lia). rewrite skip_not by reflexivity. replace (Ascii.eqb ":" ":") with true by reflexivity. cbn [negb].
  rewrite (reads_skip _ _ _ _ R), (V _ _ _ R E). unfold members_of. cbn [fold_left]. fold (members_of ms (jput (mb_key m) (mb_value m) m0)).
  destruct ms as [|m2 ms].
  - rewrite A1 by reflexivity. rewrite skip_not by reflexivity. reflexivity.
  - rewrite A2 by discriminate. rewrite skip_not by reflexivity. replace (Ascii.eqb "," "}") with false by reflexivity. replace (Ascii.eqb "," ",") with true by reflexivity.
    apply IH; [discriminate|cbn [List.length] in *; lia].
Qed.

Theorem reads_object n ms : Forall (member_ok n) ms ->
  reads (S n) ("{" ++ String.concat "," (map member_text ms) ++ "}") (JObj (members_of ms [])).
Proof.
  intros F. split; [eexists _, _; split; [reflexivity|repeat split; discriminate]|]. intros d rest L E. destruct d as [|d]; [lia|].
  cbn [append]. rewrite app_str_assoc. cbn [append].
  assert (X : forall u, json_value (S d) (String "{" u) = json_object (json_value d) u) by reflexivity. rewrite X. clear X.
  unfold json_object. destruct ms as [|m ms]; [reflexivity|].
  set (body := String.concat "," (map member_text (m :: ms))).
  assert (B : exists r, body = String dquote r).
  { inversion F as [|? ? ((b & KT & _) & _) _]; subst. unfold body. destruct ms; cbn [map String.concat]; unfold member_text at 1; rewrite KT; cbn [append]; eauto. }
  destruct B as (r & B). rewrite B at 1. cbn [append]. rewrite skip_not by reflexivity. replace (Ascii.eqb dquote "}") with false by reflexivity.
  unfold body. rewrite (json_members_read n (json_value d)); auto.
  - intros t' j' rest' [_ R'] E'. apply R'; auto. lia.
  - discriminate.
  - rewrite length_app_str. pose proof (concat_longer "," (map member_text (m :: ms))) as CL. rewrite map_length in CL.
    eapply Nat.le_trans; [apply CL|lia].
    apply Forall_forall. intros t It. apply in_map_iff in It as (x & <- & Ix). rewrite Forall_forall in F. destruct (F x Ix) as ((b & KT & _) & _).
    unfold member_text. rewrite KT. discriminate.
Qed.
