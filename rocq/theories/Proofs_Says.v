(** Proofs_Says.v -- the decoder reads exactly the strings that Spec_Indent describes. *)
From Coq Require Import ZArith NArith List String Ascii Bool Lia.
From Verif Require Import Base Model_Lex Model_Json Spec_Foreign Spec_Indent Proofs_Lib Proofs_Lex Proofs_JsonText.
Import ListNotations.
Local Open Scope string_scope.
Local Open Scope Z_scope.

Lemma app_app_split : forall a b c d : string, a ++ b = c ++ d -> (exists e, a = c ++ e /\ d = e ++ b) \/ (exists e, c = a ++ e /\ b = e ++ d).
Proof.
  induction a as [|x a IH]; intros b c d E; [right; exists c; auto|]. destruct c as [|y c]; [left; exists (String x a); auto|].
  cbn [append] in E. injection E as <- E. destruct (IH b c d E) as [(e & -> & ->)|(e & -> & ->)]; [left|right]; exists e; auto.
Qed.
Lemma app_inj_len : forall a b c d : string, String.length a = String.length c -> a ++ b = c ++ d -> a = c /\ b = d.
Proof.
  induction a as [|x a IH]; intros b [|y c] d L E; try discriminate; [auto|]. cbn [append String.length] in *. injection E as <- E. injection L as L.
  destruct (IH b c d L E) as [-> ->]. auto.
Qed.

Lemma hex_digit_iff c d : hex_digit c d <-> unhex c = Some d.
Proof.
  split.
  - intros H. unfold hex_digit in H. cbn [In] in H. repeat (destruct H as [H|H]; [injection H as <- <-; reflexivity|]). destruct H.
  - destruct c as [[] [] [] [] [] [] [] []]; vm_compute; intros E; try discriminate E; injection E as <-; tauto.
Qed.
Lemma u_escape_getu4 e v t : u_escape e v -> getu4 (e ++ t) = Some (v, t).
Proof.
  intros (a & b & c & d & x & y & z & w & A & B & C & D & -> & ->). apply hex_digit_iff in A, B, C, D. cbn [append]. unfold getu4.
  change (Ascii.eqb bslash bslash && Ascii.eqb "u" "u")%bool with true. cbn iota. unfold unhex_n. rewrite A, B, C, D. rewrite Z.mul_0_l, Z.add_0_l. reflexivity.
Qed.
Lemma getu4_u_escape s v r : getu4 s = Some (v, r) -> exists e, u_escape e v /\ s = e ++ r.
Proof.
  unfold getu4. destruct s as [|b0 [|u s]]; try discriminate. destruct (Ascii.eqb b0 bslash) eqn:A; [|discriminate]. destruct (Ascii.eqb u "u") eqn:B; [|discriminate].
  apply Ascii.eqb_eq in A, B. subst. cbn [andb]. unfold unhex_n.
  destruct s as [|a s]; [discriminate|]. destruct (unhex a) as [x|] eqn:A; [|discriminate].
  destruct s as [|b s]; [discriminate|]. destruct (unhex b) as [y|] eqn:B; [|discriminate].
  destruct s as [|c s]; [discriminate|]. destruct (unhex c) as [z|] eqn:C; [|discriminate].
  destruct s as [|d s]; [discriminate|]. destruct (unhex d) as [w|] eqn:D; [|discriminate]. rewrite Z.mul_0_l, Z.add_0_l. intros [= <- <-].
  apply hex_digit_iff in A, B, C, D. exists (String bslash (String "u" (String a (String b (String c (String d "")))))). split; [|reflexivity].
  exists a, b, c, d, x, y, z, w. auto 10.
Qed.
Lemma u_escape_shape e v : u_escape e v -> exists e', e = String bslash (String "u" e') /\ String.length e' = 4%nat.
Proof. intros (a & b & c & d & x & y & z & w & _ & _ & _ & _ & -> & _). eauto. Qed.
Lemma u_escape_range e v : u_escape e v -> 0 <= v < 65536.
Proof.
  assert (R : forall c d, hex_digit c d -> 0 <= d < 16).
  { intros c d H. unfold hex_digit in H. cbn [In] in H. repeat (destruct H as [H|H]; [injection H as <- <-; lia|]). destruct H. }
  intros (a & b & c & d & x & y & z & w & A & B & C & D & _ & ->). apply R in A, B, C, D. lia.
Qed.

(** A string ends with its quote. *)
Lemma says_quote t v : says t v -> exists p, t = p ++ String dquote "".
Proof.
  induction 1 as [|r t v _ _ _ _ _ [p ->]|c t v _ _ _ [p ->]|c z t v _ _ [p ->]|e r t v _ _ _ [p ->]|e x e' y t v _ _ _ _ _ [p ->]|e x t v _ _ _ _ [p ->]].
  - now exists "".
  - exists (encode r ++ p). now rewrite app_str_assoc.
  - now exists (String c p).
  - now exists (String bslash (String c p)).
  - exists (e ++ p). now rewrite app_str_assoc.
  - exists (e ++ e' ++ p). now rewrite !app_str_assoc.
  - exists (e ++ p). now rewrite !app_str_assoc.
Qed.

Lemma byte_alone c t rest : 128 <= code c -> (exists p, t = p ++ String dquote "") ->
  (forall r u, valid_rune r = true -> String c t <> encode r ++ u) -> forall r u, valid_rune r = true -> String c (t ++ rest) <> encode r ++ u.
Proof.
  intros C (p & ->) N r u V E. change (String c ((p ++ String dquote "") ++ rest)) with (String c (p ++ String dquote "") ++ rest) in E.
  apply app_app_split in E as [(e & E & _)|(e & E & _)]; [exact (N r e V E)|].
  destruct (Z.ltb_spec r 128) as [L|L].
  - rewrite encode_ascii in E by (apply valid_rune_range in V; lia). cbn [append] in E. injection E as _ E. destruct p; discriminate.
  - pose proof (encode_high r L V) as A. rewrite E in A. cbn [append all_c] in A. apply andb_true_iff in A as [_ A].
    rewrite app_str_assoc in A. rewrite all_c_app in A. apply andb_true_iff in A as [_ A]. cbn [append all_c] in A. apply andb_true_iff in A as [A _].
    rewrite code_dquote in A. discriminate A.
Qed.
(** What the decoder of UTF-8 returns *)
Lemma decode_cases s z w : decode s = Some (z, w) ->
  (valid_rune z = true /\ s = encode z ++ drop w s)
  \/ (z = RuneError /\ exists c t, s = String c t /\ drop w s = t /\ 128 <= code c /\ forall r u, valid_rune r = true -> s <> encode r ++ u).
Proof.
  intros D. destruct (Z.eq_dec z RuneError) as [->|N]; [|left; destruct (encode_decode s z w D) as (V & _ & E); auto; intros _ ->; congruence].
  destruct (Nat.eq_dec w 1) as [->|N]; [right|left; destruct (encode_decode s RuneError w D) as (V & _ & E); auto].
  split; [reflexivity|]. destruct s as [|c t]; [discriminate|]. exists c, t. repeat split.
  - destruct (Z.ltb_spec (code c) 128) as [L|L]; [|lia]. exfalso. cbn [decode] in D. rewrite (proj2 (Z.ltb_lt _ _) L) in D. injection D as D. unfold RuneError in D. lia.
  - intros r u V E. rewrite E, (decode_encode r u V) in D. injection D as -> D. discriminate D.
Qed.
Lemma decode_byte c t : 128 <= code c -> (forall r u, valid_rune r = true -> String c t <> encode r ++ u) -> decode (String c t) = Some (RuneError, 1%nat).
Proof.
  intros C N. destruct (decode_some (String c t) ltac:(discriminate)) as (z & w & D & _). rewrite D. apply decode_cases in D as D'.
  destruct D' as [[V E]|[-> _]]; [now apply N in E|]. destruct (Nat.eq_dec w 1) as [->|W]; [reflexivity|]. exfalso.
  destruct (encode_decode (String c t) RuneError w D) as (V & _ & E); [auto|]. now apply N in E.
Qed.

Lemma letter_iff c z : In (c, z) [(dquote, 34); (bslash, 92); ("/", 47); ("b", 8); ("f", 12); ("n", 10); ("r", 13); ("t", 9)]%char%Z <-> json_escape c = Some z.
Proof.
  split.
  - cbn [In]. intros H. repeat (destruct H as [H|H]; [injection H as <- <-; reflexivity|]). destruct H.
  - destruct c as [[] [] [] [] [] [] [] []]; vm_compute; intros E; try discriminate E; injection E as <-; tauto.
Qed.
Lemma high_iff v : high_surrogate v = true <-> high v.
Proof. unfold high_surrogate, high. rewrite andb_true_iff, Z.leb_le, Z.ltb_lt. tauto. Qed.
Lemma low_iff v : low_surrogate v = true <-> low v.
Proof. unfold low_surrogate, low. rewrite andb_true_iff, Z.leb_le, Z.ltb_lt. tauto. Qed.
Lemma not_valid_u v : 0 <= v < 65536 -> valid_rune v = false <-> high v \/ low v.
Proof. intros R. unfold valid_rune, high, low. zb; cbn; split; intros; try discriminate; try lia; auto. Qed.
Lemma encode_invalid v : valid_rune v = false -> encode v = encode RuneError.
Proof. intros V. unfold encode. rewrite V. reflexivity. Qed.

Lemma json_string_bslash k s : json_string (S k) (String bslash s) =
  match getu4 (String bslash s) with
  | Some (v, r') =>
      if high_surrogate v then
        match getu4 r' with
        | Some (w, r'') => if low_surrogate w then adds (encode ((v - 55296) * 1024 + (w - 56320) + 65536)) (json_string k r'') else adds (encode RuneError) (json_string k r')
        | None => adds (encode RuneError) (json_string k r')
        end
      else adds (encode v) (json_string k r')
  | None => match s with String e r' => match json_escape e with Some z => adds (bytes [z]) (json_string k r') | None => None end | EmptyString => None end
  end.
Proof. reflexivity. Qed.
Lemma adds_some x o v r : adds x o = Some (v, r) -> exists a, o = Some (a, r) /\ v = x ++ a.
Proof. destruct o as [[a b]|]; [|discriminate]. intros [= <- <-]. eauto. Qed.

Theorem json_string_sound : forall k s v r, json_string k s = Some (v, r) -> exists t, s = t ++ r /\ says t v.
Proof.
  induction k as [|k IH]; intros s v r H; [discriminate|]. destruct s as [|c s]; [discriminate|].
  destruct (Ascii.eqb c dquote) eqn:Q.
  { apply Ascii.eqb_eq in Q. subst c. rewrite json_string_end in H. injection H as <- <-. exists (String dquote ""). split; [reflexivity|constructor]. }
  destruct (Ascii.eqb c bslash) eqn:B.
  - apply Ascii.eqb_eq in B. subst c. rewrite json_string_bslash in H. destruct (getu4 (String bslash s)) as [[x r']|] eqn:G.
    + apply getu4_u_escape in G as (e & U & E). rewrite E. pose proof (u_escape_range _ _ U) as R. destruct (high_surrogate x) eqn:HS.
      * apply high_iff in HS. 
        assert (lone : (forall e' y u, u_escape e' y -> low y -> r' <> e' ++ u) -> adds (encode RuneError) (json_string k r') = Some (v, r) -> exists t, e ++ r' = t ++ r /\ says t v).
        { intros N J. apply adds_some in J as (a & J & ->). apply IH in J as (t & -> & S). exists (e ++ t). split; [now rewrite app_str_assoc|].
          apply says_lone with x; auto. intros _ e' y u U' L ->. apply (N e' y (u ++ r) U' L). now rewrite app_str_assoc. }
        destruct (getu4 r') as [[y r'']|] eqn:G.
        -- destruct (low_surrogate y) eqn:LS.
           ++ apply low_iff in LS. apply getu4_u_escape in G as (e' & U' & ->). apply adds_some in H as (a & J & ->). apply IH in J as (t & -> & S).
              exists (e ++ e' ++ t). split; [now rewrite !app_str_assoc|]. now apply says_pair.
           ++ apply lone; auto. intros e' y' u U' L ->. rewrite (u_escape_getu4 _ _ u U') in G. injection G as -> _. apply low_iff in L. congruence.
        -- apply lone; auto. intros e' y' u U' L ->. rewrite (u_escape_getu4 _ _ u U') in G. discriminate G.
      * apply adds_some in H as (a & J & ->). apply IH in J as (t & -> & S). exists (e ++ t). split; [now rewrite app_str_assoc|].
        destruct (valid_rune x) eqn:V; [now apply says_u|]. rewrite encode_invalid by auto. apply (not_valid_u x R) in V. apply says_lone with x; auto.
        intros HH. apply high_iff in HH. congruence.
    + destruct s as [|e s]; [discriminate|]. destruct (json_escape e) as [z|] eqn:J; [|discriminate]. apply adds_some in H as (a & K & ->).
      apply IH in K as (t & -> & S). exists (String bslash (String e t)). split; [reflexivity|]. apply (says_letter e z); [now apply letter_iff|auto].
  - destruct (code c <? 32) eqn:L; [cbn [json_string] in H; rewrite Q, L in H; discriminate|]. rewrite json_string_eq in H by auto.
    destruct (decode (String c s)) as [[z w]|] eqn:D; [|discriminate]. change (adds (encode z) (json_string k (drop w (String c s))) = Some (v, r)) in H.
    apply adds_some in H as (a & J & ->). apply IH in J as (t & E & S). apply decode_cases in D as [[V X]|(-> & c' & t' & X & Y & C & N)].
    + exists (encode z ++ t). rewrite X, E. split; [now rewrite app_str_assoc|]. apply Z.ltb_ge in L. apply Ascii.eqb_neq in Q, B.
      assert (F : z = code c \/ 128 <= z).
      { destruct (Z.ltb_spec z 128) as [Z1|Z1]; [left|auto]. rewrite encode_ascii in X by (apply valid_rune_range in V; lia). cbn [append] in X. injection X as -> _.
        rewrite code_chr; [reflexivity|]. apply valid_rune_range in V; lia. }
      apply says_char; auto; [destruct F; lia|..]; intros ->; destruct F as [F|F]; try lia; [apply Q|apply B]; apply code_inj; rewrite <- F; reflexivity.
    + injection X as <- <-. rewrite Y in E. subst s. exists (String c t). split; [reflexivity|]. apply says_byte; auto.
      intros r0 u V E. apply (N r0 (u ++ r) V). rewrite <- app_str_assoc, <- E. reflexivity.
Qed.

Theorem says_string_text t v : says t v -> string_text t v.
Proof.
  induction 1 as [|r t v V L N1 N2 S IH|c t v C N S IH|c z t v I S IH|e r t v U V S IH|e x e' y t v U HX U' LY S IH|e x t v U HL N S IH]; intros f rest F.
  - destruct f as [|f]; [cbn in F; lia|reflexivity].
  - rewrite length_app_str in F. pose proof (encode_len r). destruct f as [|f]; [lia|]. rewrite app_str_assoc, json_string_rune by auto. rewrite IH by lia. reflexivity.
  - cbn [String.length] in F. destruct f as [|f]; [lia|]. cbn [append]. rewrite json_string_eq.
    + rewrite decode_byte; [|auto|apply (byte_alone c t rest C (says_quote t v S) N)]. cbn [drop]. rewrite IH by lia. reflexivity.
    + rewrite eqb_code, code_dquote. apply Z.eqb_neq. lia.
    + apply Z.ltb_ge. lia.
    + rewrite eqb_code, code_bslash. apply Z.eqb_neq. lia.
  - cbn [String.length] in F. destruct f as [|f]; [lia|]. cbn [append]. apply letter_iff in I. rewrite (json_string_letter f c z) by (auto; intros ->; discriminate I).
    rewrite IH by lia. reflexivity.
  - destruct (u_escape_shape _ _ U) as (e' & E & _). rewrite length_app_str in F. rewrite app_str_assoc. destruct f as [|f]; [subst e; cbn in F; lia|].
    pose proof (u_escape_getu4 e r (t ++ rest) U) as G. rewrite E in G |- *. cbn [append] in G |- *. rewrite json_string_bslash, G.
    replace (high_surrogate r) with false. 2:{ symmetry. apply not_true_is_false. rewrite high_iff. intros HH. apply valid_rune_range in V. unfold high in HH. lia. }
    rewrite IH by (subst e; cbn in F; lia). reflexivity.
  - destruct (u_escape_shape _ _ U) as (e1 & E & _). rewrite !length_app_str in F. rewrite !app_str_assoc. destruct f as [|f]; [subst e; cbn in F; lia|].
    pose proof (u_escape_getu4 e x (e' ++ t ++ rest) U) as G. rewrite E in G |- *. cbn [append] in G |- *. rewrite json_string_bslash, G.
    rewrite (proj2 (high_iff x) HX). rewrite (u_escape_getu4 e' y (t ++ rest) U'), (proj2 (low_iff y) LY).
    rewrite IH by (subst e; cbn in F; lia). reflexivity.
  - destruct (u_escape_shape _ _ U) as (e1 & E & _). rewrite !length_app_str in F. rewrite !app_str_assoc. destruct f as [|f]; [subst e; cbn in F; lia|].
    pose proof (u_escape_getu4 e x (t ++ rest) U) as G. rewrite E in G |- *. cbn [append] in G |- *. rewrite json_string_bslash, G.
    assert (J : json_string f (t ++ rest) = Some (v, rest)) by (apply IH; subst e; cbn in F; lia).
    destruct (high_surrogate x) eqn:HS.
    + apply high_iff in HS. destruct (getu4 (t ++ rest)) as [[y r'']|] eqn:G2; [|rewrite J; reflexivity]. destruct (low_surrogate y) eqn:LS; [|rewrite J; reflexivity]. exfalso.
      apply low_iff in LS. apply getu4_u_escape in G2 as (e2 & U2 & E2). apply app_app_split in E2 as [(q & -> & _)|(q & E3 & _)].
      * exact (N HS e2 y q U2 LS eq_refl).
      * destruct (says_quote _ _ S) as (p & ->). destruct U2 as (a & b & c & d & x1 & y1 & z1 & w1 & A1 & A2 & A3 & A4 & -> & _).
        rewrite app_str_assoc in E3. apply hex_digit_iff in A1, A2, A3, A4. cbn [append] in E3.
        destruct p as [|p0 [|p1 [|p2 [|p3 [|p4 [|p5 [|p6 p]]]]]]]; cbn [append] in E3; try discriminate E3.
        all: injection E3; intros; subst; match goal with K : unhex dquote = Some _ |- _ => vm_compute in K; discriminate K | _ => idtac end.
    + rewrite J. cbn [adds]. rewrite (encode_invalid x); [reflexivity|]. apply not_valid_u; [exact (u_escape_range _ _ U)|exact HL].
Qed.
Corollary says_read t v rest : says t v -> json_string (S (String.length (t ++ rest))) (t ++ rest) = Some (v, rest).
Proof. intros S. apply says_string_text; [exact S|]. rewrite length_app_str. lia. Qed.
