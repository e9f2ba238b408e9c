(** Proofs_Token.v -- every text of a cell that the grammar allows is read as the cell. *)
From Coq Require Import ZArith NArith List String Ascii Bool SpecFloat Lia.
From Verif Require Import Base Model_Names Model_Table Model_Heap Spec Spec_Text Model_Lex Model_Float Model_Time Model_Parser Model_TableSet
  Proofs_Lib Proofs_Table Proofs_Heap Proofs_Lex Proofs_Num Proofs_Float Proofs_Parser Proofs_FloatText Proofs_Lines Proofs_Block
  Spec_Decimal Proofs_Closest Proofs_Decimal Spec_Time Proofs_Time Spec_Document Proofs_Document Spec_Grammar Props_Lex.
Import ListNotations.
Local Open Scope string_scope.
Local Open Scope list_scope.

(** Nothing, or a blank *)
Definition gapped (s : string) : Prop := match s with EmptyString => True | String c _ => is_blank c = true end.
Lemma blank_cases c : is_blank c = true -> c = " "%char \/ c = chr 9.
Proof.
  unfold is_blank, one_of. cbn [list_ascii_of_string existsb]. rewrite orb_false_r, orb_true_iff. intros [H|H]; apply Ascii.eqb_eq in H; auto.
Qed.
Lemma gapped_not f rest : f " "%char = false -> f (chr 9) = false -> gapped rest -> starts f rest = false.
Proof. intros A B. destruct rest as [|c r]; [reflexivity|]. cbn. intros H. destruct (blank_cases c H) as [-> | ->]; assumption. Qed.
Lemma gapped_separated rest : gapped rest -> separated rest.
Proof.
  destruct rest as [|c r]; [easy|]. cbn [gapped separated]. intros H. destruct (blank_cases c H) as [-> | ->].
  - vm_compute. intuition discriminate.
  - vm_compute. intuition discriminate.
Qed.

(** ---------- characters ---------- *)

Lemma unhex_digits : forall s acc v t, digits_val 16 acc s = Some v -> unhex_n (String.length s) acc (s ++ t) = Some (v, t).
Proof.
  induction s as [|c s IH]; intros acc v t; cbn [digits_val String.length unhex_n append]; [now intros [= ->]|].
  destruct (digit_val c) as [d|] eqn:D; [|discriminate]. destruct (Z.ltb_spec d 16); [|discriminate]. intros E.
  assert (U : unhex c = Some d).
  { unfold digit_val in D. unfold unhex. destruct (between 48 57 c) eqn:B1; [exact D|].
    destruct (between 97 122 c) eqn:B2.
    - injection D as <-. apply between_iff in B2. assert (B : between 97 102 c = true) by (apply between_iff; lia). now rewrite B.
    - destruct (between 65 90 c) eqn:B3; [|discriminate]. injection D as <-. apply between_iff in B3.
      assert (B : between 97 102 c = false) by (destruct (between 97 102 c) eqn:B; [apply between_iff in B; lia|reflexivity]).
      assert (B' : between 65 70 c = true) by (apply between_iff; lia). now rewrite B, B'. }
  rewrite U. now apply IH.
Qed.
Lemma octal_digit c d : digit_val c = Some d -> (d < 8)%Z -> (0 <= d)%Z /\ c = chr (48 + d).
Proof.
  unfold digit_val. destruct (between 48 57 c) eqn:B1.
  - intros [= <-] H. apply between_iff in B1. split; [lia|]. rewrite <- (chr_code c) at 1. f_equal. lia.
  - destruct (between 97 122 c) eqn:B2; [intros [= <-] H; apply between_iff in B2; lia|].
    destruct (between 65 90 c) eqn:B3; [intros [= <-] H; apply between_iff in B3; lia|discriminate].
Qed.
Lemma octal_three s v : numeral 8 s v -> String.length s = 3 -> exists x y z, s = bytes [48 + x; 48 + y; 48 + z]%Z /\
  (0 <= x < 8 /\ 0 <= y < 8 /\ 0 <= z < 8 /\ v = x * 64 + y * 8 + z)%Z.
Proof.
  intros N L. destruct (numeral_val 8 s v ltac:(lia) N) as [V _].
  destruct s as [|a [|b [|c [|]]]]; try discriminate L. cbn [digits_val] in V.
  destruct (digit_val a) as [x|] eqn:A; [|discriminate]. destruct (Z.ltb_spec x 8); [|discriminate].
  destruct (digit_val b) as [y|] eqn:B; [|discriminate]. destruct (Z.ltb_spec y 8); [|discriminate].
  destruct (digit_val c) as [z|] eqn:C; [|discriminate]. destruct (Z.ltb_spec z 8); [|discriminate].
  injection V as <-. destruct (octal_digit a x A) as [? ->]; [lia|]. destruct (octal_digit b y B) as [? ->]; [lia|]. destruct (octal_digit c z C) as [? ->]; [lia|].
  exists x, y, z. split; [reflexivity|]. lia.
Qed.
Lemma octal_char x : (0 <= x < 8)%Z -> unescape_letter (chr (48 + x)) = None /\ Ascii.eqb (chr (48 + x)) "x" = false /\ Ascii.eqb (chr (48 + x)) "u" = false /\
  Ascii.eqb (chr (48 + x)) "U" = false /\ octal (chr (48 + x)) = Some x.
Proof.
  intros H. assert (C : (x = 0 \/ x = 1 \/ x = 2 \/ x = 3 \/ x = 4 \/ x = 5 \/ x = 6 \/ x = 7)%Z) by lia.
  repeat destruct C as [->|C]; try (repeat split; reflexivity). subst x. repeat split; reflexivity.
Qed.

Lemma unicode_ok z : unicode z -> valid_rune z = true.
Proof. unfold unicode, valid_rune. intros H. rewrite orb_true_iff, !andb_true_iff, !Z.leb_le, !Z.ltb_lt. lia. Qed.
Lemma rune_text_enc v : (0 <= v)%Z -> rune_text v true = encode v.
Proof. unfold rune_text. intros H. cbn [negb]. rewrite orb_false_r. destruct (Z.ltb_spec v 128); [now rewrite encode_1 by lia|reflexivity]. Qed.
Lemma rune_text_byte v : rune_text v false = String (chr v) "".
Proof. unfold rune_text. cbn [negb]. now rewrite orb_true_r. Qed.

Lemma UnquoteChar_character q x v b t : quote_char q -> character q x v b ->
  exists mb, UnquoteChar q (x ++ t) = Some (v, mb, t) /\ rune_text v mb = b.
Proof.
  intros Q C.
  assert (QB : Ascii.eqb bslash q = false) by (destruct Q as [-> | ->]; reflexivity).
  assert (QR : (code q = 34 \/ code q = 39)%Z) by (destruct Q as [-> | ->]; auto).
  assert (ES : forall d r, UnquoteChar q (String bslash (String d r)) =
     match unescape_letter d with
     | Some v => Some (v, false, r)
     | None =>
         if Ascii.eqb d "x" then match unhex_n 2 0 r with Some (v, r) => Some (v, false, r) | None => None end
         else if Ascii.eqb d "u" then match unhex_n 4 0 r with Some (v, r) => if valid_rune v then Some (v, true, r) else None | None => None end
         else if Ascii.eqb d "U" then match unhex_n 8 0 r with Some (v, r) => if valid_rune v then Some (v, true, r) else None | None => None end
         else match octal d with
              | Some x => match r with
                          | String c1 (String c2 r) => match octal c1, octal c2 with
                              | Some y, Some z => let v := (x * 64 + y * 8 + z)%Z in if (255 <? v)%Z then None else Some (v, false, r)
                              | _, _ => None end
                          | _ => None end
              | None => if Ascii.eqb d bslash then Some (92%Z, false, r)
                        else if Ascii.eqb d squote || Ascii.eqb d dquote then if Ascii.eqb d q then Some (code d, false, r) else None else None
              end
     end).
  { intros d r. cbn [UnquoteChar]. rewrite QB, code_bslash. change (128 <=? 92)%Z with false. change (negb (Ascii.eqb bslash bslash)) with false. cbn match. reflexivity. }
  destruct C as [c H N1 N2 N3|r H U|c v H| | |s v N L|s v N L B|s v N L U|s v N L U].
  - exists false. cbn [append UnquoteChar]. destruct (Ascii.eqb_spec c q); [congruence|]. destruct (Z.leb_spec 128 (code c)); [lia|].
    destruct (Ascii.eqb_spec c bslash); [congruence|]. cbn [negb]. rewrite rune_text_byte, chr_code. auto.
  - exists true. apply unicode_ok in U. destruct (encode_high_head r H U) as (c & t' & E & Hc).
    rewrite E. cbn [append UnquoteChar]. rewrite eqb_code. destruct (Z.eqb_spec (code c) (code q)); [lia|]. destruct (Z.leb_spec 128 (code c)); [|lia].
    change (String c (t' ++ t)) with (String c t' ++ t)%string. rewrite <- E, decode_encode, drop_app by exact U.
    split; [reflexivity|]. apply rune_text_enc. lia.
  - exists false. cbn [append]. rewrite ES, rune_text_byte. split; [|reflexivity]. cbn [In] in H.
    repeat (destruct H as [H|H]; [injection H as <- <-; reflexivity|]). destruct H.
  - exists false. cbn [append]. rewrite ES, rune_text_byte, chr_code. split; [|reflexivity]. destruct Q as [-> | ->]; reflexivity.
  - exists false. cbn [append]. rewrite ES, rune_text_byte. split; reflexivity.
  - exists false. cbn [append]. rewrite ES, rune_text_byte. split; [|reflexivity]. destruct (numeral_val 16 s v ltac:(lia) N) as [V _].
    pose proof (unhex_digits s 0 v t V) as E. rewrite L in E. change (unescape_letter "x") with (@None Z). change (Ascii.eqb "x" "x") with true. cbn match. now rewrite E.
  - exists false. rewrite rune_text_byte. split; [|reflexivity]. destruct (octal_three s v N L) as (x & y & z & -> & X & Y & Z & ->).
    rewrite !bytes_cons, bytes_nil. cbn [append]. rewrite ES. destruct (octal_char x X) as (O1 & O2 & O3 & O4 & O5). rewrite O1, O2, O3, O4, O5.
    destruct (octal_char y Y) as (_ & _ & _ & _ & ->). destruct (octal_char z Z) as (_ & _ & _ & _ & ->). cbv zeta.
    destruct (Z.ltb_spec 255 (x * 64 + y * 8 + z)); [lia|reflexivity].
  - exists true. cbn [append]. rewrite ES. destruct (numeral_val 16 s v ltac:(lia) N) as [V _].
    pose proof (unhex_digits s 0 v t V) as E. rewrite L in E. change (unescape_letter "u") with (@None Z).
    change (Ascii.eqb "u" "x") with false. change (Ascii.eqb "u" "u") with true. cbn match. rewrite E, (unicode_ok v U). split; [reflexivity|].
    apply rune_text_enc. unfold unicode in U. lia.
  - exists true. cbn [append]. rewrite ES. destruct (numeral_val 16 s v ltac:(lia) N) as [V _].
    pose proof (unhex_digits s 0 v t V) as E. rewrite L in E. change (unescape_letter "U") with (@None Z).
    change (Ascii.eqb "U" "x") with false. change (Ascii.eqb "U" "u") with false. change (Ascii.eqb "U" "U") with true. cbn match. rewrite E, (unicode_ok v U). split; [reflexivity|].
    apply rune_text_enc. unfold unicode in U. lia.
Qed.

Lemma digits_plain base s v : (base <= 16)%Z -> numeral base s v -> all_c is_hex s = true.
Proof.
  intros B N. assert (N16 : forall s v, numeral base s v -> exists w, numeral 16 s w).
  { clear -B. induction 1 as [c d D|s v c d N [w IH] D].
    - exists d. constructor. destruct D as (n & E & L & G). exists n. repeat split; auto; lia.
    - exists (w * 16 + d)%Z. constructor; [exact IH|]. destruct D as (n & E & L & G). exists n. repeat split; auto; lia. }
  destruct (N16 s v N) as [w W]. exact (proj1 (numeral_class is_hex 16 s w hex_ok ltac:(lia) W)).
Qed.
Lemma hex_is c : is_hex c = true -> (48 <= code c <= 57 \/ 65 <= code c <= 70 \/ 97 <= code c <= 102)%Z.
Proof. unfold is_hex. rewrite !orb_true_iff, !between_iff. lia. Qed.
Lemma hex_none c s : is_hex c = false -> all_c is_hex s = true -> has c s = false.
Proof.
  intros C. rewrite has_all_c. intros A. apply negb_false_iff. revert A. apply all_c_impl. intros d D. destruct (Ascii.eqb_spec c d); [congruence|reflexivity].
Qed.
Lemma hex_plain_text s : all_c is_hex s = true -> all_c (fun c => negb (Ascii.eqb c dquote) && negb (Ascii.eqb c bslash)) s = true.
Proof. apply all_c_impl. intros c H. apply hex_is in H. rewrite !eqb_code, code_dquote, code_bslash. zb; try lia; reflexivity. Qed.

(** What a character looks like: a byte, a multibyte rune, or an escape. *)
Lemma character_shape q x v b : quote_char q -> character q x v b ->
  (exists c, x = String c "" /\ (code c < 128)%Z /\ c <> q /\ c <> bslash /\ c <> nl) \/
  (exists r, x = encode r /\ (128 <= r)%Z /\ valid_rune r = true) \/
  (exists d s, x = String bslash (String d s) /\ all_c is_hex s = true /\ (code d < 128)%Z /\ d <> nl /\ (d = bslash -> s = "") /\ ((d = dquote \/ d = squote) -> d = q /\ s = "")).
Proof.
  intros Q C. destruct C as [c H N1 N2 N3|r H U|c v H| | |s v N L|s v N L B|s v N L U|s v N L U].
  - left. exists c. auto.
  - right; left. exists r. auto using unicode_ok.
  - right; right. exists c, "". split; [reflexivity|]. split; [reflexivity|]. cbn [In] in H.
    repeat (destruct H as [H|H]; [injection H as <- <-; split; [reflexivity|]; split; [discriminate|]; split; [discriminate|intros [|]; discriminate]|]). destruct H.
  - right; right. exists q, "". split; [reflexivity|]. split; [reflexivity|]. destruct Q as [-> | ->]; split; try reflexivity; (split; [discriminate|]); (split; [discriminate|]); auto.
  - right; right. exists bslash, "". split; [reflexivity|]. split; [reflexivity|]. split; [reflexivity|]. split; [discriminate|]. split; [reflexivity|intros [|]; discriminate].
  - right; right. exists "x"%char, s. split; [reflexivity|]. split; [exact (digits_plain 16 s v ltac:(lia) N)|]. split; [reflexivity|]. split; [discriminate|]. split; [discriminate|intros [|]; discriminate].
  - right; right. pose proof (digits_plain 8 s v ltac:(lia) N) as A. destruct s as [|d s]; [discriminate|]. exists d, s. split; [reflexivity|].
    cbn [all_c] in A. apply andb_true_iff in A as [A1 A2]. apply hex_is in A1. split; [exact A2|]. split; [lia|].
    split; [intros ->; rewrite code_nl in A1; lia|]. split; [intros ->; rewrite code_bslash in A1; lia|].
    intros [-> | ->]; [rewrite code_dquote in A1|rewrite code_squote in A1]; lia.
  - right; right. exists "u"%char, s. split; [reflexivity|]. split; [exact (digits_plain 16 s v ltac:(lia) N)|]. split; [reflexivity|]. split; [discriminate|]. split; [discriminate|intros [|]; discriminate].
  - right; right. exists "U"%char, s. split; [reflexivity|]. split; [exact (digits_plain 16 s v ltac:(lia) N)|]. split; [reflexivity|]. split; [discriminate|]. split; [discriminate|intros [|]; discriminate].
Qed.
Lemma high_none c x : (code c < 128)%Z -> all_c (fun c => Z.leb 128 (code c)) x = true -> has c x = false.
Proof.
  intros C A. rewrite has_all_c. apply negb_false_iff. revert A. apply all_c_impl. intros d D. rewrite eqb_code. apply Z.leb_le in D. zb. reflexivity.
Qed.
Lemma has_cons c d s : has c (String d s) = Ascii.eqb c d || has c s.
Proof. reflexivity. Qed.
Lemma eqb_no c d : c <> d -> Ascii.eqb c d = false.
Proof. apply Ascii.eqb_neq. Qed.
Lemma character_nl q x v b : quote_char q -> character q x v b -> has nl x = false.
Proof.
  intros Q C. destruct (character_shape q x v b Q C) as [(c & -> & _ & _ & _ & N)|[(r & -> & H & V)|(d & s & -> & A & _ & N & _)]].
  - rewrite has_cons, eqb_no by congruence. reflexivity.
  - apply high_none; [rewrite code_nl; lia|]. now apply encode_high.
  - rewrite !has_cons, (hex_none nl s) by (auto; reflexivity). rewrite (eqb_no nl d) by congruence. reflexivity.
Qed.

(** ---------- strings ---------- *)

Lemma string_body_character x v b t a r : character dquote x v b -> string_body t = Some (a, r) -> string_body (x ++ t) = Some (x ++ a, r)%string.
Proof.
  intros C T. destruct (character_shape dquote x v b (or_introl eq_refl) C) as [(c & -> & _ & N1 & N2 & _)|[(q & -> & H & V)|(d & s & -> & A & _ & N & _)]].
  - apply string_body_plain; [|exact T]. cbn [all_c]. rewrite !eqb_no by assumption. reflexivity.
  - apply string_body_plain; [|exact T]. pose proof (encode_high q H V) as A. revert A. apply all_c_impl. intros c D. apply Z.leb_le in D.
    rewrite !eqb_code, code_dquote, code_bslash. zb; try lia; reflexivity.
  - apply string_body_escaped; auto using hex_plain_text.
Qed.
Lemma character_ne q x v b : quote_char q -> character q x v b -> x <> "".
Proof. intros Q C. destruct (character_shape q x v b Q C) as [(c & -> & _)|[(r & -> & _)|(d & s & -> & _)]]; [discriminate|apply encode_nonempty|discriminate]. Qed.
Lemma characters_read x s : characters dquote x s ->
  (forall rest, string_body (x ++ String dquote rest) = Some (x ++ String dquote "", rest)%string) /\ has nl x = false /\
  forall fuel, String.length x <= fuel -> unquote_from fuel dquote x = Some s.
Proof.
  induction 1 as [|x v b y s C _ (IH1 & IH2 & IH3)].
  - split; [|split]; [reflexivity|reflexivity|]. intros fuel _. apply unquote_from_empty.
  - assert (Q : quote_char dquote) by now left. pose proof (character_ne _ _ _ _ Q C) as NE. split; [|split].
    + intros rest. rewrite !app_str_assoc. now apply (string_body_character x v b).
    + rewrite Proofs_Lex.has_app, (character_nl _ _ _ _ Q C), IH2. reflexivity.
    + intros fuel L. rewrite length_app_str in L. destruct x as [|c x]; [congruence|]. cbn [String.length] in L. destruct fuel as [|k]; [lia|].
      rewrite unquote_from_eq by discriminate. destruct (UnquoteChar_character dquote _ v b y Q C) as (mb & E & T). rewrite E, IH3 by lia. now rewrite T.
Qed.
Lemma string_token x s p h rest : characters dquote x s ->
  get_value p "string" (String dquote (x ++ String dquote "") ++ rest) h = Ok (h, VString s, rest).
Proof.
  intros C. destruct (characters_read x s C) as (R & N & U).
  assert (S : scan_string (String dquote (x ++ String dquote "") ++ rest) = Some (String dquote (x ++ String dquote ""), rest)).
  { cbn [append scan_string]. change (Ascii.eqb dquote dquote) with true. cbn match. rewrite app_str_assoc. cbn [append]. now rewrite R. }
  change (get_value p "string" ?w h) with (pure h (let! (text, rest) := of_opt (scan_string w) in let! v := of_opt (Unquote text) in Ok (v, rest)) VString).
  rewrite S. cbn [of_opt rbind]. unfold Unquote. change (Ascii.eqb dquote dquote) with true. cbn match. rewrite Proofs_Lex.split_last_app.
  change (Ascii.eqb dquote dquote) with true. cbn match. rewrite N, U by lia. reflexivity.
Qed.

(** ---------- runes ---------- *)

Lemma rune_token x v b p h rest : character squote x v b ->
  get_value p "rune" (String squote (x ++ String squote "") ++ rest) h = Ok (h, VInt KInt32 v, rest).
Proof.
  intros C. assert (Q : quote_char squote) by now right. pose proof (character_ne _ _ _ _ Q C) as NE.
  assert (P : parseRune x = Some v).
  { unfold parseRune. destruct (UnquoteChar_character squote x v b "" Q C) as (mb & E & _). rewrite app_str_nil_r in E. now rewrite E. }
  assert (S : scan_rune (String squote (x ++ String squote "") ++ rest) = Some (x, rest)).
  { unfold scan_rune. cbn [append until]. change (Ascii.eqb squote squote) with true. cbn match. rewrite app_str_assoc. cbn [append].
    assert (W : x = String bslash "'" \/ (has squote x = false /\ scan_rune_hex (x ++ String squote rest) = None)).
    { destruct (character_shape squote x v b Q C) as [(c & -> & L & N1 & N2 & N3)|[(r & -> & H & V)|(d & s & -> & A & L & N & B & D)]].
      - right. split.
        + rewrite has_cons, eqb_no by congruence. reflexivity.
        + unfold scan_rune_hex. cbn [append decode]. destruct (Z.ltb_spec (code c) 128); [|lia]. destruct (Z.eqb_spec (code c) (code squote)) as [E|]; [reflexivity|].
          cbn [drop]. destruct rest; reflexivity.
      - right. split; [apply high_none; [rewrite code_squote; lia|now apply encode_high]|].
        unfold scan_rune_hex. rewrite decode_encode by exact V. rewrite code_squote. destruct (Z.eqb_spec r 39); [reflexivity|]. rewrite drop_app. destruct rest; reflexivity.
      - destruct (Ascii.eqb_spec d squote) as [->|Nd]; [left; now destruct (D (or_intror eq_refl)) as [_ ->]|right]. split.
        + rewrite !has_cons, (hex_none squote s) by (auto; reflexivity). rewrite (eqb_no squote d) by congruence. reflexivity.
        + unfold scan_rune_hex. cbn [append decode]. rewrite code_bslash, code_squote. change (92 <? 128)%Z with true. cbn match. change (92 =? 39)%Z with false. cbn match. cbn [drop].
          destruct (Ascii.eqb_spec d bslash) as [->|Nb].
          * rewrite (B eq_refl). destruct rest; reflexivity.
          * destruct (s ++ String squote rest)%string; [reflexivity|]. destruct (Ascii.eqb_spec d bslash); [congruence|reflexivity]. }
    destruct W as [->|[Hq X]]; [now destruct rest|].
    destruct (String.prefix escaped_newline (x ++ String squote rest)) eqn:E1.
    { apply prefix_spec in E1 as [t E1]. unfold escaped_newline in E1. cbn [append] in E1. rewrite has_all_c in Hq. apply negb_false_iff in Hq.
      assert (Y : x = String bslash "n" /\ t = rest).
      { destruct x as [|a [|c [|d x']]]; cbn [append] in E1; [congruence|injection E1 as <- E1 _; discriminate E1|injection E1 as -> -> E1; auto|].
        injection E1 as -> -> -> E1. cbn in Hq. discriminate Hq. }
      destruct Y as [-> ->]. reflexivity. }
    destruct (String.prefix escaped_quote (x ++ String squote rest)) eqn:E2.
    { exfalso. apply prefix_spec in E2 as [t E2]. unfold escaped_quote in E2. cbn [append] in E2. rewrite has_all_c in Hq. apply negb_false_iff in Hq.
      destruct x as [|a [|c x']]; cbn [append] in E2; [congruence| |].
      - injection E2 as Ea E2. rewrite Ea in P. vm_compute in P. discriminate P.
      - injection E2 as Ea Eb E2. rewrite Eb in Hq. cbn in Hq. rewrite andb_false_r in Hq. discriminate Hq. }
    rewrite X. now apply until_plain. }
  change (get_value p "rune" ?w h) with (pure h (let! (text, rest) := of_opt (scan_rune w) in if Nat.ltb (String.length text) 1 then Err else let! r := of_opt (parseRune text) in Ok (r, rest)) (VInt KInt32)).
  rewrite S. cbn [of_opt rbind]. destruct x as [|c x]; [congruence|]. change (Nat.ltb (String.length (String c x)) 1) with false. cbn match. rewrite P. reflexivity.
Qed.

(** ---------- booleans and slices ---------- *)

Lemma bool_token b p h rest : gapped rest -> get_value p "bool" ((if b : bool then "true" else "false") ++ rest) h = Ok (h, VBool b, rest).
Proof.
  intros G. change (get_value p "bool" ?w h) with (pure h (of_opt (scan_bool w)) (fun text => VBool (text =? "true"))).
  assert (W : word_ends rest = true) by (destruct rest as [|c r]; [reflexivity|]; cbn in G; destruct (blank_cases c G) as [-> | ->]; reflexivity).
  destruct b; unfold scan_bool.
  - change (drop 4 ("true" ++ rest)) with rest. change (String.prefix "true" ("true" ++ rest)) with (String.prefix "" rest). rewrite W. now destruct rest.
  - change (drop 5 ("false" ++ rest)) with rest. change (String.prefix "true" ("false" ++ rest)) with false. cbn [andb].
    change (String.prefix "false" ("false" ++ rest)) with (String.prefix "" rest). rewrite W. now destruct rest.
Qed.

Lemma literal_word s z : unsigned_literal s z -> s <> "" /\ all_c is_word s = true.
Proof.
  assert (HW : forall s, all_c is_hex s = true -> all_c is_word s = true).
  { intros x. apply all_c_impl. intros c H. unfold is_word, is_alpha_, is_dec. apply hex_is in H. rewrite !orb_true_iff, !between_iff. lia. }
  intros U. destruct U as [|c s v N _|s v N|p s v P N|p s v P N|p s v P N].
  - split; [discriminate|reflexivity].
  - split; [discriminate|]. apply HW. exact (digits_plain 10 _ _ ltac:(lia) N).
  - split; [discriminate|]. cbn [all_c]. apply HW. exact (digits_plain 8 _ _ ltac:(lia) N).
  - destruct P as [-> | ->]; (split; [discriminate|]); cbn [append all_c]; apply HW; exact (digits_plain 2 _ _ ltac:(lia) N).
  - destruct P as [-> | ->]; (split; [discriminate|]); cbn [append all_c]; apply HW; exact (digits_plain 8 _ _ ltac:(lia) N).
  - destruct P as [-> | ->]; (split; [discriminate|]); cbn [append all_c]; apply HW; exact (digits_plain 16 _ _ ltac:(lia) N).
Qed.

Lemma word_not_white c : is_word c = true -> is_white c = false.
Proof.
  intros W. destruct (is_white c) eqn:E; [|reflexivity]. unfold is_white, one_of in E. cbn [list_ascii_of_string existsb] in E.
  rewrite !orb_true_iff in E. repeat destruct E as [E|E]; try discriminate E; apply Ascii.eqb_eq in E; subst c; discriminate W.
Qed.
Lemma each_white_word w : all_c is_word w = true -> split_each_white w = [w] /\ forall c s, is_white c = true -> split_each_white (w ++ String c s) = w :: split_each_white s.
Proof.
  induction w as [|c w IH]; cbn [all_c].
  - intros _. split; [reflexivity|]. intros c s W. cbn [append split_each_white]. now rewrite W.
  - intros A. apply andb_true_iff in A as [A1 A2]. destruct (IH A2) as [E1 E2]. pose proof (word_not_white c A1) as N. split.
    + cbn [split_each_white]. now rewrite N, E1.
    + intros d s W. cbn [append split_each_white]. now rewrite N, (E2 d s W).
Qed.
Lemma literal_full w z : unsigned_literal w z -> (0 <= z < 256)%Z -> full_uint w = true /\ parseUint 8 w = Some z.
Proof.
  intros L R. assert (F : fits KUint8 z) by (unfold fits; cbn; lia).
  destruct (C27_literal_exact 0 "uint8" KUint8 w z "" [] eq_refl L I) as [E _]. specialize (E F). rewrite app_str_nil_r in E.
  change (get_value 0 "uint8" w []) with (pure (A := value) (B := string) [] (get_int KUint8 w) (fun v => v)) in E.
  unfold get_int in E. cbn [isigned ibits] in E. destruct (scan_uint w) as [[x r]|] eqn:S; [|discriminate]. cbn [of_opt rbind] in E.
  destruct (parseUint 8 x) as [z'|] eqn:P; [|discriminate]. cbn [of_opt rbind pure] in E. injection E as -> ->.
  assert (x = w) as ->.
  { pose proof S as S'. unfold scan_uint, scan_num in S'. destruct (scan_radix w) as [[a b]|] eqn:Rx.
    - injection S' as -> ->. unfold scan_radix in Rx. destruct w as [|zz [|c r]]; try discriminate.
      destruct (Ascii.eqb_spec zz "0") as [->|]; [|discriminate]. cbn [negb] in Rx.
      destruct (one_of "bB" c); [|destruct (one_of "oO" c); [|destruct (one_of "xX" c); [|discriminate]]];
        apply some_digits_app' in Rx as (d & -> & ->); rewrite app_str_nil_r; reflexivity.
    - apply scan_dec_app in S'. now rewrite S', app_str_nil_r. }
  unfold full_uint. rewrite S. auto.
Qed.
Lemma byte_numbers_body tok zs : byte_numbers tok zs -> exists body, tok = (body ++ "]")%string /\ body <> "" /\ has "]" body = false /\
  forallb full_uint (split_each_white body) = true /\ all_some (map (parseUint 8) (split_each_white body)) = Some zs /\
  Forall (fun w => w <> "") (split_each_white body).
Proof.
  induction 1 as [w z L R|w z c s zs L R W _ (body & -> & NE & H & F & A & X)].
  - destruct (literal_word w z L) as [N Wd]. destruct (each_white_word w Wd) as [E _]. destruct (literal_full w z L R) as [FU P].
    exists w. split; [reflexivity|]. split; [exact N|]. split; [now apply word_no_bracket|]. rewrite E. cbn. rewrite FU, P. split; [reflexivity|]. split; [reflexivity|]. now constructor.
  - destruct (literal_word w z L) as [N Wd]. destruct (each_white_word w Wd) as [_ E]. destruct (literal_full w z L R) as [FU P].
    exists (w ++ String c body)%string. split; [now rewrite app_str_assoc|]. split; [destruct w; [congruence|discriminate]|].
    split. { rewrite Proofs_Lex.has_app, (word_no_bracket w Wd). rewrite has_cons, H. cbn [orb]. rewrite orb_false_r.
      apply eqb_no. intros <-. discriminate W. }
    rewrite (E c body W). cbn [forallb map all_some]. rewrite FU, P, F, A. split; [reflexivity|]. split; [reflexivity|]. now constructor.
Qed.
Lemma slice_value p ct s h : ct = "[]byte" \/ ct = "[]uint8" -> get_value p ct s h = pure h (get_slice s) (fun v => v).
Proof. intros [-> | ->]; reflexivity. Qed.
Lemma slice_token tok zs p ct h rest : ct = "[]byte" \/ ct = "[]uint8" -> byte_numbers tok zs ->
  get_value p ct (String "[" tok ++ rest) h = Ok (h, VBytes (Some (map chr zs)), rest).
Proof.
  intros T B. rewrite slice_value by exact T. destruct (byte_numbers_body tok zs B) as (body & -> & NE & H & F & A & X).
  unfold get_slice. cbn [append scan_slice]. change (Ascii.eqb "[" "[") with true. cbn match. rewrite app_str_assoc. cbn [append].
  rewrite (until_plain "]" body rest H), F, orb_true_r. cbn [of_opt rbind]. unfold splitSliceString.
  destruct (String.eqb_spec body ""); [congruence|]. rewrite each_white_words, A; [reflexivity|].
  pose proof (each_white_ne body). destruct (split_each_white body); [congruence|]. now inversion X.
Qed.
Lemma empty_slice_token p ct h rest : ct = "[]byte" \/ ct = "[]uint8" -> get_value p ct ("[]" ++ rest) h = Ok (h, VBytes (Some []), rest).
Proof. intros T. rewrite slice_value by exact T. reflexivity. Qed.

(** ---------- floats ---------- *)

Definition digits (s : string) : Prop := s <> "" /\ every is_dec s.
Definition sign (s : string) : Prop := s = "" \/ s = "+" \/ s = "-".
Inductive mantissa : string -> Prop :=
  | man_int d : digits d -> mantissa d
  | man_point d f : digits d -> every is_dec f -> mantissa (d ++ "." ++ f)
  | man_frac f : digits f -> mantissa ("." ++ f).
Inductive exponent : string -> Prop :=
  | exp_none : exponent ""
  | exp_some e s d : e = "e" \/ e = "E" -> sign s -> digits d -> exponent (e ++ s ++ d).
Definition decimal (tok : string) : Prop := exists s m e, sign s /\ mantissa m /\ exponent e /\ tok = (s ++ m ++ e)%string.


Lemma digits_all s : digits s <-> s <> "" /\ all_c is_dec s = true.
Proof. unfold digits. now rewrite every_all. Qed.
Lemma digits_cons d : digits d -> exists c r, d = String c r /\ is_dec c = true /\ all_c is_dec r = true.
Proof. rewrite digits_all. intros [N A]. destruct d as [|c r]; [congruence|]. cbn in A. apply andb_true_iff in A as [A B]. eauto. Qed.
Lemma exponent_not_dec e rest : exponent e -> gapped rest -> starts is_dec (e ++ rest) = false /\ starts (Ascii.eqb ".") (e ++ rest) = false.
Proof.
  intros [|x s d [-> | ->] S D] G; cbn [append starts]; auto.
  split; apply gapped_not; auto.
Qed.
Lemma scan_exponent_app' e rest : exponent e -> gapped rest -> scan_exponent (e ++ rest) = (e, rest).
Proof.
  intros [|x s d X S D] G.
  - destruct rest as [|c r]; [reflexivity|]. cbn in G. unfold scan_exponent. cbn [append]. destruct (blank_cases c G) as [-> | ->]; reflexivity.
  - assert (SD : scan_dec "+-" ((s ++ d) ++ rest) = Some ((s ++ d)%string, rest)).
    { pose proof (gapped_not is_dec rest eq_refl eq_refl G) as ND. apply digits_all in D as [N A]. destruct S as [->|[-> | ->]]; cbn [append].
      - destruct d as [|c d]; [congruence|]. cbn [append scan_dec]. pose proof A as A'. cbn in A'. apply andb_true_iff in A' as [C _]. apply dec_code in C.
        assert (O : one_of "+-" c = false).
        { unfold one_of. cbn [list_ascii_of_string existsb]. rewrite !eqb_code. change (code "+") with 43%Z. change (code "-") with 45%Z. zb. reflexivity. }
        rewrite O. exact (some_digits_app is_dec "" (String c d) rest A N ND).
      - change (one_of "+-" "+") with true. exact (some_digits_app is_dec "+" d rest A N ND).
      - change (one_of "+-" "-") with true. exact (some_digits_app is_dec "-" d rest A N ND). }
    destruct X as [-> | ->]; unfold scan_exponent; cbn [append]; cbn match; [change (one_of "eE" "e") with true|change (one_of "eE" "E") with true]; cbn match; now rewrite SD.
Qed.
Lemma scan_mantissa_app' m e rest : mantissa m -> exponent e -> gapped rest -> scan_mantissa (m ++ e ++ rest) = Some (m, (e ++ rest)%string).
Proof.
  intros M E G. destruct (exponent_not_dec e rest E G) as [ND NP]. set (r := (e ++ rest)%string) in *. destruct M as [d D|d f D F|f F].
  - apply digits_all in D as [N A]. unfold scan_mantissa. rewrite span_app by assumption. destruct d as [|c d]; [congruence|].
    destruct r as [|p r']; [reflexivity|]. cbn [starts] in NP. rewrite Ascii.eqb_sym in NP. rewrite NP. reflexivity.
  - apply digits_all in D as [N A]. apply every_all in F. unfold scan_mantissa. rewrite !app_str_assoc. rewrite span_app by (assumption || reflexivity).
    destruct d as [|c d]; [congruence|]. cbn [append]. change (Ascii.eqb "." ".") with true. cbn match. rewrite span_app by assumption. reflexivity.
  - apply digits_all in F as [N A]. unfold scan_mantissa. cbn [append span]. change (is_dec ".") with false. cbn match.
    change (Ascii.eqb "." ".") with true. cbn match. exact (some_digits_app is_dec "." f r A N ND).
Qed.
Lemma mantissa_first m : mantissa m -> exists c r, m = String c r /\ (is_dec c = true \/ c = "."%char).
Proof.
  intros [d D|d f D F|f F].
  - destruct (digits_cons d D) as (c & r & -> & C & _). eauto 6.
  - destruct (digits_cons d D) as (c & r & -> & C & _). cbn. eauto 6.
  - cbn. eauto.
Qed.
Lemma decimal_first s m e : sign s -> mantissa m -> exists c r, (s ++ m ++ e)%string = String c r /\ (is_dec c = true \/ c = "."%char \/ c = "+"%char \/ c = "-"%char) /\ (s = "" -> one_of "-+" c = false).
Proof.
  intros S M. destruct S as [->|[-> | ->]]; cbn [append].
  - destruct (mantissa_first m M) as (c & r & -> & C). exists c, (r ++ e)%string. split; [reflexivity|]. split; [tauto|]. intros _.
    destruct C as [C| ->]; [now apply dec_not_sign|reflexivity].
  - exists "+"%char, (m ++ e)%string. split; [reflexivity|]. split; [auto|discriminate].
  - exists "-"%char, (m ++ e)%string. split; [reflexivity|]. split; [auto|discriminate].
Qed.
Lemma scan_decimal_app' tok rest : decimal tok -> gapped rest -> scan_float (tok ++ rest) = Some (tok, rest).
Proof.
  intros (s & m & e & S & M & E & ->) G. pose proof (scan_mantissa_app' m e rest M E G) as SM. pose proof (scan_exponent_app' e rest E G) as SE.
  unfold scan_float, scan_decimal. rewrite !app_str_assoc.
  assert (P : (let '(sg, r) := match (s ++ m ++ e ++ rest)%string with String c r => if one_of "-+" c then (String c "", r) else ("", (s ++ m ++ e ++ rest)%string) | EmptyString => ("", (s ++ m ++ e ++ rest)%string) end in (sg, r)) = (s, (m ++ e ++ rest)%string)).
  { destruct S as [->|[-> | ->]]; cbn [append]; [|reflexivity|reflexivity].
    destruct (mantissa_first m M) as (c & r & -> & C). cbn [append]. assert (O : one_of "-+" c = false) by (destruct C as [C| ->]; [now apply dec_not_sign|reflexivity]).
    now rewrite O. }
  destruct (match (s ++ m ++ e ++ rest)%string with String c r => _ | EmptyString => _ end) as [sg r]. injection P as -> ->. rewrite SM, SE. reflexivity.
Qed.
Lemma decimal_nan F tok f : decimal tok -> ParseFloat F tok = Some f -> f <> S754_nan /\ tok <> "NaN".
Proof.
  intros (s & m & e & S & M & E & ->) P.
  assert (NN : forall neg n d g, nearest F neg n d = Some g -> g <> S754_nan).
  { intros neg n d g. unfold nearest. destruct (n =? 0)%Z; [intros [= <-]; discriminate|]. destruct (scale _ n d) as [a b]. cbv zeta. destruct (_ =? 0)%Z; [intros [= <-]; discriminate|].
    destruct (if (_ =? _)%Z then _ else _) as [q x]. destruct (_ <? _)%Z; [discriminate|intros [= <-]; discriminate]. }
  assert (ND : forall neg x j g, nearest_dec F neg x j = Some g -> g <> S754_nan) by (intros neg x j g; unfold nearest_dec; destruct (0 <=? j)%Z; apply NN).
  destruct (decimal_first s m e S M) as (c & r & Q & C & _). rewrite Q in *. split.
  - unfold ParseFloat in P. destruct (lower (String c r) =? "nan") eqn:L.
    + exfalso. cbn [lower String.eqb] in L. destruct (Ascii.eqb_spec (lower_char c) "n") as [X|]; [|discriminate].
      unfold lower_char in X. destruct C as [C|[-> |[-> | ->]]]; try discriminate X. apply dec_code in C. destruct (between 65 90 c) eqn:B; [apply between_iff in B; lia|].
      subst c. change (code "n") with 110%Z in C. lia.
    + destruct (take_sign (String c r)) as [neg r']. destruct (_ || _); [injection P as <-; discriminate|]. destruct (decimal_text r') as [[x j]|]; [|discriminate]. eapply ND, P.
  - intros X. injection X as -> _. destruct C as [C|[C|[C|C]]]; discriminate C.
Qed.
Lemma float_token F tok f rest : decimal tok -> ParseFloat F tok = Some f -> gapped rest -> get_float F (tok ++ rest) = Ok (f, rest).
Proof.
  intros D P G. unfold get_float. rewrite (scan_decimal_app' tok rest D G). cbn [of_opt rbind]. rewrite P. cbn [of_opt rbind].
  destruct (decimal_nan F tok f D P) as [N _]. destruct f; [reflexivity|reflexivity|congruence|reflexivity].
Qed.
Lemma numeral_digits a x : numeral 10 a x -> digits a.
Proof. intros N. destruct (numeral_dec a x N) as (_ & A & NE). now apply digits_all. Qed.
Lemma magnitude_mantissa m x k : magnitude m x k -> mantissa m.
Proof.
  intros [a y N|a b y N].
  - apply man_int. exact (numeral_digits a y N).
  - destruct (numeral_dec _ y N) as (_ & A & NE). rewrite all_c_app in A. apply andb_true_iff in A as [A B]. destruct a as [|c a].
    + apply (man_frac b). apply digits_all. split; [|exact B]. exact NE.
    + apply man_point; [apply digits_all; split; [discriminate|exact A]|now apply every_all].
Qed.
Lemma power_exponent e y : power e y -> exponent e.
Proof.
  intros [|c s a x EE SS N|c a x EE N].
  - constructor.
  - apply exp_some; [exact EE| |exact (numeral_digits a x N)]. destruct SS as [-> | ->]; unfold sign; auto.
  - apply exp_some; [exact EE| |exact (numeral_digits a x N)]. unfold sign; auto.
Qed.
Lemma decimal_of_decimal tok neg x k y : decimal_of tok neg x k y -> decimal tok.
Proof.
  intros (s & m & e & -> & S & M & P). exists s, m, e. split; [|split; [|split; [|reflexivity]]].
  - unfold sign. destruct S as [[-> _]|[[-> | ->] _]]; auto.
  - exact (magnitude_mantissa m x k M).
  - exact (power_exponent e y P).
Qed.
Lemma number_token F tok neg n d f rest : fmt_ok F -> number_text tok neg n d -> rounds (f_prec F) (f_emax F) neg n d f -> gapped rest -> get_float F (tok ++ rest) = Ok (f, rest).
Proof.
  intros Fo N R G. destruct (ParseFloat_number_text F tok neg n d Fo N) as (E & N0 & D0). destruct N as (x & k & y & D & _).
  apply float_token; [exact (decimal_of_decimal tok neg x k y D)| |exact G]. rewrite E. now apply nearest_rounds.
Qed.
Lemma nan_token F rest : get_float F ("NaN" ++ rest) = Ok (S754_nan, rest).
Proof. reflexivity. Qed.

(** ---------- times ---------- *)

Lemma time_token tok f rest : time_literal tok f -> scan_time (tok ++ rest) = Some (f, rest).
Proof.
  intros T. assert (E : time_at (tok ++ rest) = Some (f, rest)).
  { unfold time_literal, time_at in T.
    destruct (field 4 "-" tok) as [[y r1]|] eqn:F1; [|discriminate]. destruct (field_app _ _ _ _ _ F1) as (a1 & -> & G1).
    destruct (field 2 "-" r1) as [[mo r2]|] eqn:F2; [|discriminate]. destruct (field_app _ _ _ _ _ F2) as (a2 & -> & G2).
    destruct (field 2 "T" r2) as [[d r3]|] eqn:F3; [|discriminate]. destruct (field_app _ _ _ _ _ F3) as (a3 & -> & G3).
    destruct (field 2 ":" r3) as [[ho r4]|] eqn:F4; [|discriminate]. destruct (field_app _ _ _ _ _ F4) as (a4 & -> & G4).
    destruct (field 2 ":" r4) as [[mi r5]|] eqn:F5; [|discriminate]. destruct (field_app _ _ _ _ _ F5) as (a5 & -> & G5).
    destruct (field 2 "" r5) as [[se r6]|] eqn:F6; [|discriminate]. destruct (field_app _ _ _ _ _ F6) as (a6 & -> & G6).
    fold (time_fraction r6) in T. destruct (time_fraction r6) as [ns r7] eqn:F7. destruct (time_zone r7) as [[[[zh zm] zn] r8]|] eqn:F8; [|discriminate].
    injection T as <- ->. destruct (fraction_app _ _ _ _ _ F7 F8) as (a7 & -> & G7). destruct (G7 rest) as (r & G8 & G9). rewrite app_str_nil_r.
    unfold time_at. rewrite !app_str_assoc, G1, G2, G3, G4, G5, G6. fold (time_fraction (a7 ++ rest)). rewrite G8, G9. reflexivity. }
  destruct (tok ++ rest)%string as [|c s] eqn:Q; cbn [scan_time]; [destruct tok; [discriminate T|discriminate Q]|]. now rewrite E.
Qed.
