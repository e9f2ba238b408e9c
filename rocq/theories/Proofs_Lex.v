(** Proofs_Lex.v -- bytes, UTF-8, string and rune literals. *)
From Coq Require Import ZArith NArith List String Ascii Bool Lia.
From Verif Require Import Base Model_Lex.
Import ListNotations.
Local Open Scope string_scope.
Local Open Scope Z_scope.

(** ---------- bytes ---------- *)

Lemma code_range c : 0 <= code c < 256.
Proof.
  unfold code. assert (N_of_ascii c < 256)%N by apply N_ascii_bounded. lia.
Qed.
Lemma code_chr z : 0 <= z < 256 -> code (chr z) = z.
Proof.
  intros H. unfold code, chr. rewrite N_ascii_embedding by lia. lia.
Qed.
Lemma chr_code c : chr (code c) = c.
Proof. unfold code, chr. rewrite N2Z.id. apply ascii_N_embedding. Qed.
Lemma code_inj c d : code c = code d -> c = d.
Proof. intros H. rewrite <- (chr_code c), <- (chr_code d). now rewrite H. Qed.
Lemma chr_inj x y : 0 <= x < 256 -> 0 <= y < 256 -> chr x = chr y -> x = y.
Proof. intros Hx Hy H. rewrite <- (code_chr x), <- (code_chr y) by easy. now rewrite H. Qed.

Lemma eqb_code c d : Ascii.eqb c d = (code c =? code d).
Proof.
  destruct (Ascii.eqb_spec c d) as [->|N].
  - symmetry. apply Z.eqb_refl.
  - symmetry. apply Z.eqb_neq. intros H. apply N. now apply code_inj.
Qed.
Lemma between_chr lo hi z : 0 <= z < 256 -> between lo hi (chr z) = ((lo <=? z) && (z <=? hi)).
Proof. intros H. unfold between. now rewrite code_chr. Qed.

Lemma code_nl : code nl = 10. Proof. reflexivity. Qed.
Lemma code_dquote : code dquote = 34. Proof. reflexivity. Qed.
Lemma code_squote : code squote = 39. Proof. reflexivity. Qed.
Lemma code_bslash : code bslash = 92. Proof. reflexivity. Qed.

(** ---------- strings ---------- *)

Lemma app_str_nil_r s : (s ++ "")%string = s.
Proof. induction s as [|c s IH]; [reflexivity|]. cbn. now rewrite IH. Qed.
Lemma app_str_assoc a b c : ((a ++ b) ++ c)%string = (a ++ b ++ c)%string.
Proof. induction a as [|x a IH]; [reflexivity|]. cbn. now rewrite IH. Qed.
Lemma length_app_str a b : String.length (a ++ b) = (String.length a + String.length b)%nat.
Proof. induction a as [|x a IH]; [reflexivity|]. cbn. now rewrite IH. Qed.
Lemma app_str_inj_l a b c : (a ++ b = a ++ c)%string -> b = c.
Proof. induction a as [|x a IH]; cbn; [easy|]. intros [= H]. now apply IH. Qed.

Lemma drop_app a b : drop (String.length a) (a ++ b) = b.
Proof. induction a as [|c a IH]; [reflexivity|]. cbn. apply IH. Qed.
Lemma drop_all s : drop (String.length s) s = "".
Proof. induction s as [|c s IH]; [reflexivity|]. cbn. apply IH. Qed.
Lemma drop_empty n : drop n "" = "".
Proof. now destruct n. Qed.
Lemma length_drop n s : String.length (drop n s) = (String.length s - n)%nat.
Proof.
  revert s; induction n as [|n IH]; intros s; cbn [drop]; [lia|].
  destruct s as [|c s]; cbn; [reflexivity|]. apply IH.
Qed.
Lemma prefix_app a b : String.prefix a (a ++ b) = true.
Proof. induction a as [|c a IH]; cbn; [now destruct b|]. destruct (ascii_dec c c); [apply IH|easy]. Qed.
Lemma prefix_spec a s : String.prefix a s = true <-> exists t, s = (a ++ t)%string.
Proof.
  split.
  - revert s; induction a as [|c a IH]; intros s H; [now exists s|].
    destruct s as [|d s]; [easy|]. cbn in H. destruct (ascii_dec c d) as [->|]; [|easy].
    destruct (IH s H) as [t ->]. now exists t.
  - intros [t ->]. apply prefix_app.
Qed.

(** All bytes satisfy a test. *)
Fixpoint all_c (f : ascii -> bool) (s : string) : bool :=
  match s with EmptyString => true | String c r => f c && all_c f r end.
Lemma all_c_app f a b : all_c f (a ++ b) = all_c f a && all_c f b.
Proof. induction a as [|c a IH]; cbn; [reflexivity|]. now rewrite IH, andb_assoc. Qed.
Lemma all_c_impl (f g : ascii -> bool) s : (forall c, f c = true -> g c = true) -> all_c f s = true -> all_c g s = true.
Proof.
  intros H. induction s as [|c s IH]; cbn; [easy|]. intros E. apply andb_true_iff in E as [E1 E2].
  rewrite (H c E1). now apply IH.
Qed.
Lemma has_all_c c s : has c s = negb (all_c (fun d => negb (Ascii.eqb c d)) s).
Proof.
  unfold has. induction s as [|d s IH]; cbn; [reflexivity|]. rewrite IH.
  now destruct (Ascii.eqb c d).
Qed.

(** ---------- UTF-8 ---------- *)

Lemma bytes_cons z l : bytes (z :: l) = String (chr z) (bytes l).
Proof. reflexivity. Qed.
Lemma bytes_nil : bytes [] = "".
Proof. reflexivity. Qed.

Lemma valid_rune_range r : valid_rune r = true -> 0 <= r <= 1114111 /\ (r < 55296 \/ 57343 < r).
Proof.
  unfold valid_rune. intros H. apply orb_true_iff in H.
  destruct H as [H|H]; apply andb_true_iff in H as [H1 H2]; lia.
Qed.
Lemma valid_RuneError : valid_rune RuneError = true.
Proof. reflexivity. Qed.

Ltac zb := repeat (match goal with
  | |- context [(?a =? ?b)] =>
      first [ rewrite (proj2 (Z.eqb_eq a b)) by lia | rewrite (proj2 (Z.eqb_neq a b)) by lia | destruct (Z.eqb_spec a b) ]
  | |- context [(?a <? ?b)] =>
      first [ rewrite (proj2 (Z.ltb_lt a b)) by lia | rewrite (proj2 (Z.ltb_ge a b)) by lia | destruct (Z.ltb_spec a b) ]
  | |- context [(?a <=? ?b)] =>
      first [ rewrite (proj2 (Z.leb_le a b)) by lia | rewrite (proj2 (Z.leb_gt a b)) by lia | destruct (Z.leb_spec a b) ]
  end; cbn match; cbn [andb orb negb]).

Lemma decode_encode r t : valid_rune r = true -> decode (encode r ++ t) = Some (r, String.length (encode r)).
Proof.
  intros V. pose proof (valid_rune_range r V) as [B S]. unfold encode. rewrite V.
  destruct (Z.ltb_spec r 128); [|destruct (Z.ltb_spec r 2048); [|destruct (Z.ltb_spec r 65536)]];
    rewrite ?bytes_cons, ?bytes_nil; cbn [append decode String.length].
  - rewrite code_chr by lia. destruct (Z.ltb_spec r 128); [reflexivity|lia].
  - assert (0 <= r / 64 < 32) by (split; [apply Z.div_pos; lia | apply Z.div_lt_upper_bound; lia]).
    assert (2 <= r / 64) by (apply Z.div_le_lower_bound; lia).
    assert (0 <= r mod 64 < 64) by (apply Z.mod_pos_bound; lia).
    unfold cont. rewrite !between_chr by lia. rewrite !code_chr by lia.
    pose proof (Z.div_mod r 64). zb; cbn [andb]; try lia; f_equal; f_equal; lia.
  - assert (0 <= r / 4096 < 16) by (split; [apply Z.div_pos; lia | apply Z.div_lt_upper_bound; lia]).
    assert (0 <= r mod 64 < 64) by (apply Z.mod_pos_bound; lia).
    assert (0 <= r / 64 mod 64 < 64) by (apply Z.mod_pos_bound; lia).
    assert (E : r = r / 4096 * 4096 + r / 64 mod 64 * 64 + r mod 64).
    { pose proof (Z.div_mod r 64). pose proof (Z.div_mod (r / 64) 64).
      replace (r / 4096) with (r / 64 / 64) by (rewrite Z.div_div by lia; reflexivity). lia. }
    unfold cont. rewrite !between_chr by lia. rewrite !code_chr by lia.
    zb; cbn [andb]; try lia; f_equal; f_equal; lia.
  - assert (0 <= r / 262144 < 5) by (split; [apply Z.div_pos; lia | apply Z.div_lt_upper_bound; lia]).
    assert (0 <= r mod 64 < 64) by (apply Z.mod_pos_bound; lia).
    assert (0 <= r / 64 mod 64 < 64) by (apply Z.mod_pos_bound; lia).
    assert (0 <= r / 4096 mod 64 < 64) by (apply Z.mod_pos_bound; lia).
    assert (E : r = r / 262144 * 262144 + r / 4096 mod 64 * 4096 + r / 64 mod 64 * 64 + r mod 64).
    { pose proof (Z.div_mod r 64). pose proof (Z.div_mod (r / 64) 64). pose proof (Z.div_mod (r / 4096) 64).
      replace (r / 262144) with (r / 4096 / 64) by (rewrite Z.div_div by lia; reflexivity).
      assert (r / 4096 = r / 64 / 64) by (rewrite Z.div_div by lia; reflexivity). lia. }
    unfold cont. rewrite !between_chr by lia. rewrite !code_chr by lia.
    zb; cbn [andb]; try lia; f_equal; f_equal; lia.
Qed.

Lemma between_iff lo hi c : between lo hi c = true <-> lo <= code c <= hi.
Proof. unfold between. rewrite andb_true_iff, !Z.leb_le. reflexivity. Qed.

Lemma valid_ascii r : 0 <= r < 128 -> valid_rune r = true.
Proof. intros H. unfold valid_rune. zb; reflexivity. Qed.
Lemma encode_1 r : 0 <= r < 128 -> encode r = bytes [r].
Proof. intros H. unfold encode. rewrite valid_ascii by exact H. zb. reflexivity. Qed.

Lemma encode_2 a b : 194 <= a <= 223 -> 128 <= b <= 191 -> encode ((a - 192) * 64 + (b - 128)) = bytes [a; b] /\ valid_rune ((a - 192) * 64 + (b - 128)) = true.
Proof.
  intros Ha Hb. set (r := (a - 192) * 64 + (b - 128)).
  assert (R : 128 <= r < 2048) by (unfold r; lia).
  assert (V : valid_rune r = true) by (unfold valid_rune; zb; try lia; reflexivity).
  split; [|exact V]. unfold encode. rewrite V. destruct (Z.ltb_spec r 128); [lia|]. destruct (Z.ltb_spec r 2048); [|lia].
  assert (D : r / 64 = a - 192) by (symmetry; apply (Z.div_unique r 64 _ (b - 128)); unfold r; lia).
  assert (Mo : r mod 64 = b - 128) by (symmetry; apply (Z.mod_unique r 64 (a - 192)); unfold r; lia).
  rewrite D, Mo. repeat f_equal; lia.
Qed.
Lemma encode_3 a b c r : r = (a - 224) * 4096 + (b - 128) * 64 + (c - 128) ->
  224 <= a <= 239 -> 128 <= b <= 191 -> 128 <= c <= 191 -> (a = 224 -> 160 <= b) -> (a = 237 -> b <= 159) ->
  encode r = bytes [a; b; c] /\ valid_rune r = true.
Proof.
  intros E Ha Hb Hc H1 H2.
  assert (R : 2048 <= r < 65536) by lia.
  assert (V : valid_rune r = true).
  { unfold valid_rune. destruct (Z.eq_dec a 237); [|assert (a <= 236 \/ 238 <= a) by lia]; zb; try reflexivity; lia. }
  split; [|exact V]. unfold encode. rewrite V. destruct (Z.ltb_spec r 128); [lia|]. destruct (Z.ltb_spec r 2048); [lia|].
  destruct (Z.ltb_spec r 65536); [|lia].
  assert (D : r / 64 = (a - 224) * 64 + (b - 128)) by (symmetry; apply (Z.div_unique r 64 _ (c - 128)); lia).
  assert (Mo : r mod 64 = c - 128) by (symmetry; apply (Z.mod_unique r 64 ((a - 224) * 64 + (b - 128))); lia).
  assert (D2 : r / 4096 = a - 224) by (symmetry; apply (Z.div_unique r 4096 _ ((b - 128) * 64 + (c - 128))); lia).
  assert (M2 : r / 64 mod 64 = b - 128) by (rewrite D; symmetry; apply (Z.mod_unique _ 64 (a - 224)); lia).
  rewrite Mo, D2, M2. repeat f_equal; lia.
Qed.
Lemma encode_4 a b c d r : r = (a - 240) * 262144 + (b - 128) * 4096 + (c - 128) * 64 + (d - 128) ->
  240 <= a <= 244 -> 128 <= b <= 191 -> 128 <= c <= 191 -> 128 <= d <= 191 -> (a = 240 -> 144 <= b) -> (a = 244 -> b <= 143) ->
  encode r = bytes [a; b; c; d] /\ valid_rune r = true.
Proof.
  intros E Ha Hb Hc Hd H1 H2.
  assert (R : 65536 <= r < 1114112) by lia.
  assert (V : valid_rune r = true) by (unfold valid_rune; zb; try lia; reflexivity).
  split; [|exact V]. unfold encode. rewrite V. destruct (Z.ltb_spec r 128); [lia|]. destruct (Z.ltb_spec r 2048); [lia|].
  destruct (Z.ltb_spec r 65536); [lia|].
  assert (D : r / 64 = (a - 240) * 4096 + (b - 128) * 64 + (c - 128)) by (symmetry; apply (Z.div_unique r 64 _ (d - 128)); lia).
  assert (Mo : r mod 64 = d - 128) by (symmetry; apply (Z.mod_unique r 64 ((a - 240) * 4096 + (b - 128) * 64 + (c - 128))); lia).
  assert (D2 : r / 4096 = (a - 240) * 64 + (b - 128)) by (symmetry; apply (Z.div_unique r 4096 _ ((c - 128) * 64 + (d - 128))); lia).
  assert (M2 : r / 64 mod 64 = c - 128) by (rewrite D; symmetry; apply (Z.mod_unique _ 64 ((a - 240) * 64 + (b - 128))); lia).
  assert (D3 : r / 262144 = a - 240) by (symmetry; apply (Z.div_unique r 262144 _ ((b - 128) * 4096 + (c - 128) * 64 + (d - 128))); lia).
  assert (M3 : r / 4096 mod 64 = b - 128) by (rewrite D2; symmetry; apply (Z.mod_unique _ 64 (a - 240)); lia).
  rewrite Mo, D3, M2, M3. repeat f_equal; lia.
Qed.

(** What decode returns, when it is not (RuneError, 1): the text starts with the encoding of
    that rune. *)
Lemma encode_decode s r w :
  decode s = Some (r, w) -> (w = 1%nat -> r = RuneError -> False) ->
  valid_rune r = true /\ w = String.length (encode r) /\ s = (encode r ++ drop w s)%string.
Proof.
  destruct s as [|c0 s]; [discriminate|]. cbn [decode]. intros D N.
  pose proof (code_range c0) as R0.
  destruct (Z.ltb_spec (code c0) 128).
  { injection D as <- <-. rewrite encode_1 by lia. cbn. rewrite chr_code.
    rewrite valid_ascii by lia. auto. }
  destruct (between 194 223 c0) eqn:B0.
  { apply between_iff in B0. destruct s as [|c1 s]; [injection D as <- <-; now exfalso; apply N|].
    destruct (cont c1) eqn:B1; [|injection D as <- <-; now exfalso; apply N].
    apply between_iff in B1. injection D as <- <-.
    destruct (encode_2 (code c0) (code c1) B0 B1) as [-> V]. cbn. rewrite !chr_code. auto. }
  destruct (between 224 239 c0) eqn:B1.
  { apply between_iff in B1. destruct s as [|c1 s]; [injection D as <- <-; now exfalso; apply N|].
    destruct s as [|c2 s]; [injection D as <- <-; now exfalso; apply N|].
    destruct (_ && _) eqn:B2 in D; [|injection D as <- <-; now exfalso; apply N].
    apply andb_true_iff in B2 as [B2 B3]. apply between_iff in B2, B3. injection D as <- <-.
    edestruct (encode_3 (code c0) (code c1) (code c2)) as [E V]; [reflexivity|..|rewrite E; cbn; rewrite !chr_code; auto];
      destruct (Z.eqb_spec (code c0) 224), (Z.eqb_spec (code c0) 237); lia. }
  destruct (between 240 244 c0) eqn:B2.
  { apply between_iff in B2. destruct s as [|c1 s]; [injection D as <- <-; now exfalso; apply N|].
    destruct s as [|c2 s]; [injection D as <- <-; now exfalso; apply N|].
    destruct s as [|c3 s]; [injection D as <- <-; now exfalso; apply N|].
    destruct (_ && _) eqn:B3 in D; [|injection D as <- <-; now exfalso; apply N].
    apply andb_true_iff in B3 as [B3 B5]. apply andb_true_iff in B3 as [B3 B4].
    apply between_iff in B3, B4, B5. injection D as <- <-.
    edestruct (encode_4 (code c0) (code c1) (code c2) (code c3)) as [E V]; [reflexivity|..|rewrite E; cbn; rewrite !chr_code; auto];
      destruct (Z.eqb_spec (code c0) 240), (Z.eqb_spec (code c0) 244); lia. }
  injection D as <- <-. now exfalso; apply N.
Qed.

Lemma decode_some s : s <> "" -> exists r w, decode s = Some (r, w) /\ (1 <= w)%nat.
Proof.
  destruct s as [|c0 s]; [easy|]. intros _. cbn [decode].
  assert (bad : exists r w, Some (RuneError, 1%nat) = Some (r, w) /\ (1 <= w)%nat) by (exists RuneError, 1%nat; split; [easy|lia]).
  destruct (_ <? 128); [eexists _, _; split; [reflexivity|lia]|].
  destruct (between 194 223 c0); [|destruct (between 224 239 c0); [|destruct (between 240 244 c0); [|exact bad]]].
  - destruct s as [|c1 s]; [exact bad|]. destruct (cont c1); [eexists _, _; split; [reflexivity|lia]|exact bad].
  - destruct s as [|c1 [|c2 s]]; [exact bad..|]. destruct (_ && _); [eexists _, _; split; [reflexivity|lia]|exact bad].
  - destruct s as [|c1 [|c2 [|c3 s]]]; [exact bad..|]. destruct (_ && _); [eexists _, _; split; [reflexivity|lia]|exact bad].
Qed.

(** The bytes of an encoded rune *)
Lemma encode_ascii r : 0 <= r < 128 -> encode r = String (chr r) "".
Proof. intros H. now rewrite encode_1. Qed.
Lemma encode_high r : 128 <= r -> valid_rune r = true -> all_c (fun c => 128 <=? code c) (encode r) = true.
Proof.
  intros H V. pose proof (valid_rune_range r V) as [B S]. unfold encode. rewrite V.
  destruct (Z.ltb_spec r 128); [lia|]. destruct (Z.ltb_spec r 2048); [|destruct (Z.ltb_spec r 65536)];
    rewrite ?bytes_cons, ?bytes_nil; cbn [all_c].
  - assert (0 <= r / 64 < 32) by (split; [apply Z.div_pos; lia | apply Z.div_lt_upper_bound; lia]).
    assert (0 <= r mod 64 < 64) by (apply Z.mod_pos_bound; lia).
    rewrite !code_chr by lia. zb; try reflexivity; lia.
  - assert (0 <= r / 4096 < 16) by (split; [apply Z.div_pos; lia | apply Z.div_lt_upper_bound; lia]).
    assert (0 <= r mod 64 < 64) by (apply Z.mod_pos_bound; lia).
    assert (0 <= r / 64 mod 64 < 64) by (apply Z.mod_pos_bound; lia).
    rewrite !code_chr by lia. zb; try reflexivity; lia.
  - assert (0 <= r / 262144 < 5) by (split; [apply Z.div_pos; lia | apply Z.div_lt_upper_bound; lia]).
    assert (0 <= r mod 64 < 64) by (apply Z.mod_pos_bound; lia).
    assert (0 <= r / 64 mod 64 < 64) by (apply Z.mod_pos_bound; lia).
    assert (0 <= r / 4096 mod 64 < 64) by (apply Z.mod_pos_bound; lia).
    rewrite !code_chr by lia. zb; try reflexivity; lia.
Qed.
Lemma encode_nonempty r : encode r <> "".
Proof. unfold encode. repeat destruct (_ <? _); easy. Qed.
Lemma encode_len r : (1 <= String.length (encode r) <= 4)%nat.
Proof. unfold encode. repeat destruct (_ <? _); cbn; lia. Qed.
Lemma encode_high_head r : 128 <= r -> valid_rune r = true -> exists c t, encode r = String c t /\ 128 <= code c.
Proof.
  intros H V. pose proof (encode_high r H V) as A. pose proof (encode_nonempty r) as N.
  destruct (encode r) as [|c t]; [easy|]. exists c, t. cbn in A. apply andb_true_iff in A as [A _].
  apply Z.leb_le in A. auto.
Qed.

(** ---------- hexadecimal digits ---------- *)

Lemma hexdigit_range z : 0 <= z < 16 -> (48 <= code (hexdigit z) <= 57 \/ 97 <= code (hexdigit z) <= 102).
Proof. intros H. unfold hexdigit. destruct (Z.ltb_spec z 10); rewrite code_chr; lia. Qed.
Lemma unhex_hexdigit z : 0 <= z < 16 -> unhex (hexdigit z) = Some z.
Proof.
  intros H. unfold unhex, hexdigit. destruct (Z.ltb_spec z 10); rewrite !between_chr, !code_chr by lia.
  - zb; try lia; f_equal; lia.
  - zb; try lia; f_equal; lia.
Qed.
Lemma unhex_hex n : forall v z t, 0 <= z -> unhex_n n v (hex n z ++ t) = Some (v * 16 ^ Z.of_nat n + z mod 16 ^ Z.of_nat n, t).
Proof.
  induction n as [|n IH]; intros v z t H.
  - cbn [hex append unhex_n]. change (Z.of_nat 0) with 0. rewrite Z.pow_0_r, Z.mod_1_r. repeat f_equal; lia.
  - cbn [hex append unhex_n].
    assert (P : 0 < 16 ^ Z.of_nat n) by (apply Z.pow_pos_nonneg; lia).
    assert (M : 0 <= z / 16 ^ Z.of_nat n mod 16 < 16) by (apply Z.mod_pos_bound; lia).
    rewrite unhex_hexdigit by exact M. rewrite IH by exact H.
    rewrite Nat2Z.inj_succ, Z.pow_succ_r by lia.
    rewrite (Z.mul_comm 16), Z.rem_mul_r by lia. f_equal. f_equal. lia.
Qed.
Lemma hex_chars n z : 0 <= z -> all_c (fun c => ((48 <=? code c) && (code c <=? 57)) || ((97 <=? code c) && (code c <=? 102))) (hex n z) = true.
Proof.
  intros H. induction n as [|n IH]; [reflexivity|]. cbn [hex all_c]. rewrite IH, andb_true_r.
  destruct (hexdigit_range (z / 16 ^ Z.of_nat n mod 16)); [apply Z.mod_pos_bound; lia|..];
    apply orb_true_iff; [left|right]; apply andb_true_iff; rewrite !Z.leb_le; lia.
Qed.

(** ---------- one character of a literal ---------- *)

(** What the printers write for one rune *)
Inductive written (q : ascii) : Z -> string -> Prop :=
  | w_plain r : 32 <= r < 127 -> r <> code q -> r <> 92 -> written q r (String (chr r) "")
  | w_high r : 128 <= r -> valid_rune r = true -> written q r (encode r)
  | w_self r : r = code q \/ r = 92 -> written q r (String bslash (String (chr r) ""))
  | w_letter r c : escape_letter r = Some c -> written q r (String bslash (String c ""))
  | w_x r : 0 <= r < 128 -> written q r (String bslash (String "x" (hex 2 r)))
  | w_u r : valid_rune r = true -> r < 65536 -> 128 <= r -> written q r (String bslash (String "u" (hex 4 r)))
  | w_U r : valid_rune r = true -> 128 <= r -> written q r (String bslash (String "U" (hex 8 r))).

Lemma escape_written ip q r : valid_rune r = true -> written q r (escape_rune ip q r).
Proof.
  intros V. pose proof (valid_rune_range r V) as [B S]. unfold escape_rune.
  destruct (_ || _) eqn:E1; [apply w_self; apply orb_true_iff in E1; destruct E1 as [E1|E1]; apply Z.eqb_eq in E1; auto|].
  apply orb_false_iff in E1 as [E1 E2]. apply Z.eqb_neq in E1, E2.
  destruct (is_print ip r) eqn:P.
  { unfold is_print in P. destruct (Z.ltb_spec r 128).
    - apply andb_true_iff in P as [P1 P2]. rewrite encode_ascii by lia. apply w_plain; lia.
    - apply w_high; [lia|exact V]. }
  destruct (escape_letter r) as [c|] eqn:L; [now apply w_letter|].
  destruct (_ || _) eqn:E3.
  { apply w_x. apply orb_true_iff in E3. destruct E3 as [E3|E3]; [apply Z.ltb_lt in E3|apply Z.eqb_eq in E3]; lia. }
  apply orb_false_iff in E3 as [E3 E4]. apply Z.ltb_ge in E3. apply Z.eqb_neq in E4.
  assert (128 <= r).
  { unfold is_print in P. destruct (Z.ltb_spec r 128); [|lia]. exfalso.
    apply andb_false_iff in P. destruct P as [P|P]; apply Z.leb_gt in P; lia. }
  rewrite V. destruct (Z.ltb_spec r 65536); [now apply w_u | now apply w_U].
Qed.

Lemma escape_letter_inv r c : escape_letter r = Some c -> unescape_letter c = Some r /\ 0 <= r < 32.
Proof.
  unfold escape_letter. destruct r as [|p|p]; [discriminate| |discriminate].
  repeat (destruct p as [p|p|]; try discriminate); intros [= <-]; split; (reflexivity || lia).
Qed.

(** The text of a rune *)
Definition rune_text (c : Z) (multibyte : bool) : string := if (c <? 128) || negb multibyte then bytes [c] else encode c.

Definition quote_char (q : ascii) : Prop := q = dquote \/ q = squote.

Lemma UnquoteChar_written q r x t :
  quote_char q -> valid_rune r = true -> written q r x ->
  exists mb, UnquoteChar q (x ++ t) = Some (r, mb, t) /\ rune_text r mb = encode r.
Proof.
  intros Q V Wr. pose proof (valid_rune_range r V) as [B S].
  assert (QR : code q = 34 \/ code q = 39) by (destruct Q as [-> | ->]; auto).
  assert (QB : Ascii.eqb bslash q = false) by (destruct Q as [-> | ->]; reflexivity).
  destruct Wr as [r H N1 N2|r H _|r H|r c H|r H|r _ H1 H2|r _ H].
  - exists false. cbn [append UnquoteChar]. rewrite !eqb_code, !code_chr, code_bslash by lia.
    zb; try lia. unfold rune_text. rewrite orb_true_r. rewrite encode_ascii by lia. auto.
  - exists true. destruct (encode_high_head r H V) as (c & t' & E & Hc).
    cbn [UnquoteChar]. rewrite E. cbn [append UnquoteChar].
    rewrite eqb_code. destruct (Z.eqb_spec (code c) (code q)); [lia|]. destruct (Z.leb_spec 128 (code c)); [|lia].
    change (String c (t' ++ t)) with (String c t' ++ t)%string. rewrite <- E, decode_encode, drop_app by exact V.
    split; [reflexivity|]. unfold rune_text. destruct (Z.ltb_spec r 128); [lia|reflexivity].
  - exists false. cbn [append UnquoteChar]. rewrite QB. cbn [Z.leb]. rewrite code_bslash.
    change (128 <=? 92) with false. change (negb (Ascii.eqb bslash bslash)) with false. cbn match.
    assert (R : r = 34 \/ r = 39 \/ r = 92) by lia.
    split; [|unfold rune_text; rewrite orb_true_r; rewrite encode_1 by lia; reflexivity].
    destruct H as [H|H].
    + assert (C : chr r = q) by (subst r; apply chr_code). rewrite C.
      destruct Q as [-> | ->]; cbn -[code]; (rewrite H; reflexivity).
    + subst r. destruct Q as [-> | ->]; reflexivity.
  - exists false. destruct (escape_letter_inv r c H) as [E R].
    cbn [append UnquoteChar]. rewrite QB, code_bslash.
    change (128 <=? 92) with false. change (negb (Ascii.eqb bslash bslash)) with false. cbn match.
    rewrite E. split; [reflexivity|]. unfold rune_text; rewrite orb_true_r; rewrite encode_1 by lia; reflexivity.
  - exists false. cbn [append UnquoteChar]. rewrite QB, code_bslash.
    change (128 <=? 92) with false. change (negb (Ascii.eqb bslash bslash)) with false. cbn match.
    change (unescape_letter "x") with (@None Z). change (Ascii.eqb "x" "x") with true. cbn match.
    rewrite unhex_hex by lia. change (16 ^ Z.of_nat 2) with 256. rewrite Z.mod_small by lia.
    split; [reflexivity|]. unfold rune_text; rewrite orb_true_r; rewrite encode_1 by lia; reflexivity.
  - exists true. cbn [append UnquoteChar]. rewrite QB, code_bslash.
    change (128 <=? 92) with false. change (negb (Ascii.eqb bslash bslash)) with false. cbn match.
    change (unescape_letter "u") with (@None Z). change (Ascii.eqb "u" "x") with false. change (Ascii.eqb "u" "u") with true. cbn match.
    rewrite unhex_hex by lia. change (16 ^ Z.of_nat 4) with 65536. rewrite Z.mod_small by lia.
    cbn [Z.mul Z.add]. rewrite V. split; [reflexivity|]. unfold rune_text. destruct (Z.ltb_spec r 128); [lia|reflexivity].
  - exists true. cbn [append UnquoteChar]. rewrite QB, code_bslash.
    change (128 <=? 92) with false. change (negb (Ascii.eqb bslash bslash)) with false. cbn match.
    change (unescape_letter "U") with (@None Z). change (Ascii.eqb "U" "x") with false. change (Ascii.eqb "U" "u") with false.
    change (Ascii.eqb "U" "U") with true. cbn match.
    rewrite unhex_hex by lia. change (16 ^ Z.of_nat 8) with 4294967296. rewrite Z.mod_small by lia.
    cbn [Z.mul Z.add]. rewrite V. split; [reflexivity|]. unfold rune_text. destruct (Z.ltb_spec r 128); [lia|reflexivity].
Qed.

(** ---------- string literals ---------- *)

Lemma drop_shorter s r w : decode s = Some (r, w) -> (String.length (drop w s) < String.length s)%nat.
Proof.
  intros D. destruct s as [|c s]; [discriminate|].
  destruct (decode_some (String c s)) as (r' & w' & D' & H); [easy|]. rewrite D in D'. injection D' as <- <-.
  rewrite length_drop. cbn [String.length]. lia.
Qed.

Definition raw_byte (s : string) : Z := match s with String c _ => code c | _ => 0 end.

(** The text of one turn of the loop of Quote *)
Definition quoted1 (ip : Z -> bool) (q : ascii) (s : string) (r : Z) (w : nat) : string :=
  if Nat.eqb w 1 && (r =? RuneError) then String bslash (String "x" (hex 2 (raw_byte s))) else escape_rune ip q r.

Lemma quote_from_eq k ip q s :
  quote_from (S k) ip q s =
  match decode s with None => "" | Some (r, w) => (quoted1 ip q s r w ++ quote_from k ip q (drop w s))%string end.
Proof. reflexivity. Qed.

(** The three cases of one turn. *)
Lemma quote_cases ip q s r w :
  decode s = Some (r, w) ->
  (exists c t, s = String c t /\ w = 1%nat /\ quoted1 ip q s r w = String bslash (String "x" (hex 2 (code c)))) \/
  (valid_rune r = true /\ s = (encode r ++ drop w s)%string /\ written q r (quoted1 ip q s r w)).
Proof.
  intros D. unfold quoted1. destruct (Nat.eqb w 1 && (r =? RuneError)) eqn:E.
  - left. destruct s as [|c t]; [discriminate|]. apply andb_true_iff in E as [E _]. apply Nat.eqb_eq in E.
    exists c, t. auto.
  - right. destruct (encode_decode s r w D) as (V & L & Eq).
    { intros -> ->. discriminate E. }
    repeat split; try assumption. now apply escape_written.
Qed.

Lemma UnquoteChar_x q z t : quote_char q -> 0 <= z < 256 ->
  UnquoteChar q (String bslash (String "x" (hex 2 z)) ++ t) = Some (z, false, t).
Proof.
  intros Q H. assert (QB : Ascii.eqb bslash q = false) by (destruct Q as [-> | ->]; reflexivity).
  cbn [append UnquoteChar]. rewrite QB, code_bslash.
  change (128 <=? 92) with false. change (negb (Ascii.eqb bslash bslash)) with false. cbn match.
  change (unescape_letter "x") with (@None Z). change (Ascii.eqb "x" "x") with true. cbn match.
  rewrite unhex_hex by lia. change (16 ^ Z.of_nat 2) with 256. rewrite Z.mod_small by lia. reflexivity.
Qed.

Lemma written_nonempty q r x : written q r x -> x <> "".
Proof. destruct 1; try easy. apply encode_nonempty. Qed.
Lemma quoted1_nonempty ip q s r w : decode s = Some (r, w) -> quoted1 ip q s r w <> "".
Proof.
  intros D. destruct (quote_cases ip q s r w D) as [(c & t & _ & _ & ->)|(_ & _ & Wr)]; [easy|].
  now apply written_nonempty in Wr.
Qed.

Lemma unquote_from_eq k q s : s <> "" ->
  unquote_from (S k) q s =
  match UnquoteChar q s with
  | None => None
  | Some (c, mb, tail) =>
      match unquote_from k q tail with None => None | Some rest => Some (rune_text c mb ++ rest)%string end
  end.
Proof. destruct s; [easy|]. reflexivity. Qed.
Lemma unquote_from_empty k q : unquote_from k q "" = Some "".
Proof. now destruct k. Qed.

Lemma unquote_quote ip q : quote_char q -> forall k s, (String.length s <= k)%nat ->
  forall k', (String.length (quote_from k ip q s) <= k')%nat -> unquote_from k' q (quote_from k ip q s) = Some s.
Proof.
  intros Q. induction k as [|k IH]; intros s L k' L'.
  - destruct s; [|cbn in L; lia]. apply unquote_from_empty.
  - rewrite quote_from_eq in *. destruct (decode s) as [[r w]|] eqn:D.
    2:{ destruct s; [apply unquote_from_empty|]. destruct (decode_some (String a s)) as (? & ? & E & _); [easy|].
        rewrite D in E. discriminate. }
    pose proof (drop_shorter s r w D) as Sh.
    pose proof (quoted1_nonempty ip q s r w D) as N.
    rewrite length_app_str in L'.
    destruct (quoted1 ip q s r w) as [|c0 x0] eqn:E0; [easy|]. rewrite <- E0 in *. clear N.
    assert (1 <= String.length (quoted1 ip q s r w))%nat by (rewrite E0; cbn; lia).
    destruct k' as [|k']; [lia|].
    rewrite unquote_from_eq by (rewrite E0; easy).
    assert (IH' : unquote_from k' q (quote_from k ip q (drop w s)) = Some (drop w s)) by (apply IH; lia).
    destruct (quote_cases ip q s r w D) as [(c & t & E1 & E2 & ->)|(V & E1 & Wr)].
    + rewrite UnquoteChar_x by (auto using code_range). rewrite IH'. subst s w. cbn [drop].
      unfold rune_text. rewrite orb_true_r. cbn. now rewrite chr_code.
    + destruct (UnquoteChar_written q r _ (quote_from k ip q (drop w s)) Q V Wr) as (mb & -> & T).
      rewrite IH', T. now rewrite <- E1.
Qed.

(** No piece has a newline, and the scanner of string literals walks over it. *)
Lemma string_body_plain x : all_c (fun c => negb (Ascii.eqb c dquote) && negb (Ascii.eqb c bslash)) x = true ->
  forall t a b, string_body t = Some (a, b) -> string_body (x ++ t) = Some (x ++ a, b)%string.
Proof.
  induction x as [|c x IH]; cbn [all_c append string_body]; intros H t a b E; [exact E|].
  apply andb_true_iff in H as [H1 H2]. apply andb_true_iff in H1 as [H0 H1].
  destruct (Ascii.eqb c dquote); [easy|]. destruct (Ascii.eqb c bslash); [easy|].
  now rewrite (IH H2 t a b E).
Qed.
Lemma string_body_escaped d x t a b : d <> nl ->
  all_c (fun c => negb (Ascii.eqb c dquote) && negb (Ascii.eqb c bslash)) x = true ->
  string_body t = Some (a, b) ->
  string_body (String bslash (String d x) ++ t) = Some (String bslash (String d x) ++ a, b)%string.
Proof.
  intros N H E. cbn [append string_body]. change (Ascii.eqb bslash dquote) with false.
  change (Ascii.eqb bslash bslash) with true. cbn match.
  destruct (Ascii.eqb_spec d nl); [easy|]. now rewrite (string_body_plain x H t a b E).
Qed.
Lemma hex_plain n z : 0 <= z -> all_c (fun c => negb (Ascii.eqb c dquote) && negb (Ascii.eqb c bslash)) (hex n z) = true.
Proof.
  intros H. eapply all_c_impl; [|apply (hex_chars n z H)]. intros c E. rewrite !eqb_code, code_dquote, code_bslash.
  apply orb_true_iff in E. destruct E as [E|E]; apply andb_true_iff in E as [E1 E2]; apply Z.leb_le in E1, E2; zb; easy.
Qed.
Lemma escape_letter_not_nl r c : escape_letter r = Some c -> c <> nl.
Proof.
  unfold escape_letter. destruct r as [|p|p]; [discriminate| |discriminate].
  repeat (destruct p as [p|p|]; try discriminate); intros [= <-]; easy.
Qed.
Lemma string_body_written r x t a b : valid_rune r = true -> written dquote r x ->
  string_body t = Some (a, b) -> string_body (x ++ t) = Some (x ++ a, b)%string.
Proof.
  intros V Wr E. pose proof (valid_rune_range r V) as [B _]. destruct Wr as [r H N1 N2|r H _|r H|r c H|r H|r _ H1 H2|r _ H].
  - apply string_body_plain; [|exact E]. cbn [all_c]. rewrite !eqb_code, ?code_dquote, ?code_squote, ?code_bslash, ?code_nl, code_chr by lia. zb; easy.
  - apply string_body_plain; [|exact E]. eapply all_c_impl; [|apply (encode_high r H V)].
    intros c Hc. apply Z.leb_le in Hc. rewrite !eqb_code, code_bslash, code_dquote. zb; easy.
  - rewrite code_dquote in H.
    apply string_body_escaped; try easy. intros Hn. apply (f_equal code) in Hn. rewrite code_nl, code_chr in Hn by lia. lia.
  - apply string_body_escaped; try easy. eapply escape_letter_not_nl; eauto.
  - apply string_body_escaped; try easy. apply hex_plain; lia.
  - apply string_body_escaped; try easy. apply hex_plain; lia.
  - apply string_body_escaped; try easy. apply hex_plain; lia.
Qed.

Lemma decode_none s : decode s = None -> s = "".
Proof. destruct s as [|c s]; [easy|]. intros D. destruct (decode_some (String c s)) as (? & ? & E & _); [easy|]. rewrite D in E. discriminate. Qed.

Lemma string_body_quote ip k : forall s, (String.length s <= k)%nat -> forall t a b,
  string_body t = Some (a, b) -> string_body (quote_from k ip dquote s ++ t) = Some (quote_from k ip dquote s ++ a, b)%string.
Proof.
  induction k as [|k IH]; intros s L t a b E; [exact E|].
  rewrite quote_from_eq. destruct (decode s) as [[r w]|] eqn:D; [|exact E].
  pose proof (drop_shorter s r w D) as Sh. rewrite !app_str_assoc.
  assert (E' : string_body (quote_from k ip dquote (drop w s) ++ t) = Some (quote_from k ip dquote (drop w s) ++ a, b)%string)
    by (apply IH; [lia|exact E]).
  destruct (quote_cases ip dquote s r w D) as [(c & t' & E1 & E2 & ->)|(V & E1 & Wr)].
  - apply string_body_escaped; try easy. apply hex_plain. apply code_range.
  - now apply (string_body_written r).
Qed.

Theorem scan_Quote ip s rest : scan_string (Quote ip s ++ rest) = Some (Quote ip s, rest).
Proof.
  unfold Quote, scan_string. cbn [append]. change (Ascii.eqb dquote dquote) with true. cbn match.
  rewrite app_str_assoc. cbn [append].
  rewrite (string_body_quote ip (String.length s) s (le_n _) (String dquote rest) (String dquote "") rest) by reflexivity.
  reflexivity.
Qed.

Lemma not_nl_written q r x : quote_char q -> valid_rune r = true -> written q r x -> has nl x = false.
Proof.
  intros Q V Wr. pose proof (valid_rune_range r V) as [B _]. rewrite has_all_c. apply negb_false_iff.
  assert (HX : forall n z, 0 <= z -> all_c (fun d => negb (Ascii.eqb nl d)) (hex n z) = true).
  { intros n z H. eapply all_c_impl; [|apply (hex_chars n z H)]. intros c E. rewrite eqb_code, code_nl.
    apply orb_true_iff in E. destruct E as [E|E]; apply andb_true_iff in E as [E1 E2]; apply Z.leb_le in E1, E2; zb; easy. }
  destruct Wr as [r H N1 N2|r H _|r H|r c H|r H|r _ H1 H2|r _ H]; cbn [all_c].
  - rewrite eqb_code, ?code_dquote, ?code_squote, ?code_bslash, ?code_nl, code_chr by lia. zb; easy.
  - eapply all_c_impl; [|apply (encode_high r H V)]. intros c Hc. apply Z.leb_le in Hc. rewrite eqb_code, code_nl. zb; easy.
  - assert (0 <= r < 128) by (destruct Q as [-> | ->]; rewrite ?code_dquote, ?code_squote in H; lia).
    change (Ascii.eqb nl bslash) with false. rewrite eqb_code, ?code_dquote, ?code_squote, ?code_bslash, ?code_nl, code_chr by lia.
    destruct Q as [-> | ->], H as [->|H]; rewrite ?code_dquote, ?code_squote; zb; easy.
  - pose proof (escape_letter_not_nl r c H). destruct (Ascii.eqb_spec nl c); [congruence|reflexivity].
  - rewrite HX by lia. reflexivity.
  - rewrite HX by lia. reflexivity.
  - rewrite HX by lia. reflexivity.
Qed.
Lemma has_app c a b : has c (a ++ b) = has c a || has c b.
Proof. rewrite !has_all_c, all_c_app. now destruct (all_c _ a), (all_c _ b). Qed.
Lemma not_nl_quote ip q k : quote_char q -> forall s, has nl (quote_from k ip q s) = false.
Proof.
  intros Q. induction k as [|k IH]; intros s; [reflexivity|].
  rewrite quote_from_eq. destruct (decode s) as [[r w]|] eqn:D; [|reflexivity].
  rewrite has_app, IH, orb_false_r.
  destruct (quote_cases ip q s r w D) as [(c & t' & E1 & E2 & ->)|(V & E1 & Wr)].
  - rewrite has_all_c. apply negb_false_iff. change (all_c (fun d => negb (Ascii.eqb nl d)) (hex 2 (code c)) = true).
    eapply all_c_impl; [|apply (hex_chars 2 (code c) (proj1 (code_range c)))]. intros d E. rewrite eqb_code, code_nl.
    apply orb_true_iff in E. destruct E as [E|E]; apply andb_true_iff in E as [E3 E4]; apply Z.leb_le in E3, E4; zb; easy.
  - now apply (not_nl_written q r).
Qed.
Lemma split_last_app s c : split_last (s ++ String c "") = Some (s, c).
Proof. induction s as [|d s IH]; [reflexivity|]. cbn. now rewrite IH. Qed.

Theorem Unquote_Quote ip s : Unquote (Quote ip s) = Some s.
Proof.
  unfold Unquote, Quote. change (Ascii.eqb dquote dquote) with true. cbn match.
  rewrite split_last_app. change (Ascii.eqb dquote dquote) with true. cbn match.
  rewrite not_nl_quote by now left. apply unquote_quote; [now left|lia|lia].
Qed.
Lemma Quote_no_nl ip s : has nl (Quote ip s) = false.
Proof. unfold Quote. change (String dquote ?x) with (String dquote "" ++ x)%string. rewrite !has_app, not_nl_quote by now left. reflexivity. Qed.

(** ---------- rune literals ---------- *)

Lemma until_plain c x t : has c x = false -> until c (x ++ String c t) = Some (x, t).
Proof.
  rewrite has_all_c. intros H. apply negb_false_iff in H. revert H. induction x as [|d x IH]; intros H.
  - cbn. now rewrite Ascii.eqb_refl.
  - cbn in *. apply andb_true_iff in H as [H1 H2]. rewrite Ascii.eqb_sym. destruct (Ascii.eqb c d); [easy|]. now rewrite IH.
Qed.

(** A written rune other than the quote itself has no quote in it. *)
Lemma no_quote_written r x : valid_rune r = true -> r <> 39 -> written squote r x -> has squote x = false.
Proof.
  intros V N Wr. pose proof (valid_rune_range r V) as [B _]. rewrite has_all_c. apply negb_false_iff.
  assert (HX : forall n z, 0 <= z -> all_c (fun d => negb (Ascii.eqb squote d)) (hex n z) = true).
  { intros n z H. eapply all_c_impl; [|apply (hex_chars n z H)]. intros c E. rewrite eqb_code, code_squote.
    apply orb_true_iff in E. destruct E as [E|E]; apply andb_true_iff in E as [E1 E2]; apply Z.leb_le in E1, E2; zb; easy. }
  destruct Wr as [r H N1 N2|r H _|r H|r c H|r H|r _ H1 H2|r _ H]; cbn [all_c].
  - rewrite eqb_code, ?code_dquote, ?code_squote, ?code_bslash, ?code_nl, code_chr by lia. zb; easy.
  - eapply all_c_impl; [|apply (encode_high r H V)]. intros c Hc. apply Z.leb_le in Hc. rewrite eqb_code, code_squote. zb; easy.
  - rewrite code_squote in H. change (Ascii.eqb squote bslash) with false. rewrite eqb_code, ?code_dquote, ?code_squote, ?code_bslash, ?code_nl, code_chr by lia.
    zb; easy.
  - change (Ascii.eqb squote bslash) with false. cbn [negb andb]. clear -H.
    unfold escape_letter in H. destruct r as [|p|p]; [discriminate| |discriminate].
    repeat (destruct p as [p|p|]; try discriminate); injection H as <-; easy.
  - rewrite HX by lia. reflexivity.
  - rewrite HX by lia. reflexivity.
  - rewrite HX by lia. reflexivity.
Qed.

Lemma scan_rune_hex_written r x t : valid_rune r = true -> r <> 39 -> written squote r x ->
  scan_rune_hex (x ++ String squote t) = None.
Proof.
  intros V N Wr. pose proof (valid_rune_range r V) as [B _].
  assert (HE : forall d z, d <> bslash -> scan_rune_hex (String bslash (String d z)) = None).
  { intros d z Hd. unfold scan_rune_hex. cbn [decode]. rewrite code_bslash, code_squote. cbn [Z.ltb Z.eqb drop].
    change (92 <? 128) with true. cbn match. change (92 =? 39) with false. cbn match. cbn [drop].
    destruct z; [reflexivity|]. destruct (Ascii.eqb_spec d bslash); [easy|]. reflexivity. }
  assert (HH : forall c z, (2 <= String.length z)%nat -> c <> bslash -> scan_rune_hex (String bslash (String c z)) = None)
    by (intros; now apply HE).
  destruct Wr as [r H N1 N2|r H _|r H|r c H|r H|r _ H1 H2|r _ H]; cbn [append].
  - unfold scan_rune_hex. cbn [decode]. rewrite code_chr, code_squote by lia. zb. cbn [drop].
    destruct t; reflexivity.
  - unfold scan_rune_hex. rewrite decode_encode by exact V. rewrite code_squote. zb. rewrite drop_app.
    destruct t; reflexivity.
  - destruct H as [H|H]; [rewrite code_squote in H; lia|]. subst r. reflexivity.
  - apply HE. clear -H. unfold escape_letter in H. destruct r as [|p|p]; [discriminate| |discriminate].
    repeat (destruct p as [p|p|]; try discriminate); injection H as <-; easy.
  - now apply HE.
  - now apply HE.
  - now apply HE.
Qed.

Lemma prefix_false a s : (forall t, s <> (a ++ t)%string) -> String.prefix a s = false.
Proof.
  intros H. destruct (String.prefix a s) eqn:E; [|reflexivity]. apply prefix_spec in E as [t ->]. now destruct (H t).
Qed.

Theorem scan_QuoteRune ip r rest : valid_rune r = true ->
  exists x, scan_rune (QuoteRune ip r ++ rest) = Some (x, rest) /\ parseRune x = Some r /\ x <> "".
Proof.
  intros V. unfold QuoteRune. rewrite V. pose proof (escape_written ip squote r V) as Wr.
  set (x := escape_rune ip squote r) in *. exists x.
  assert (P : parseRune x = Some r).
  { unfold parseRune. destruct (UnquoteChar_written squote r x "" (or_intror eq_refl) V Wr) as (mb & E & _).
    rewrite app_str_nil_r in E. now rewrite E. }
  split; [|split; [exact P|now apply written_nonempty in Wr]].
  unfold scan_rune. cbn [append until]. change (Ascii.eqb squote squote) with true. cbn match.
  rewrite app_str_assoc. cbn [append].
  destruct (Z.eq_dec r 39) as [->|N].
  { change x with (String bslash "'"). now destruct rest. }
  destruct (String.prefix escaped_newline (x ++ String squote rest)) eqn:E1.
  { apply prefix_spec in E1 as [t E1]. unfold escaped_newline in E1. cbn [append] in E1.
    assert (X : x = String bslash "n" /\ t = rest).
    { pose proof (no_quote_written r x V N Wr) as Hq. rewrite has_all_c in Hq. apply negb_false_iff in Hq.
      destruct x as [|a [|b [|c x']]]; cbn [append] in E1.
      - discriminate E1.
      - injection E1 as <- E1 _. discriminate E1.
      - injection E1 as -> -> E1. auto.
      - injection E1 as -> -> -> E1. cbn in Hq. discriminate Hq. }
    destruct X as [-> ->]. reflexivity. }
  destruct (String.prefix escaped_quote (x ++ String squote rest)) eqn:E2.
  { exfalso. apply prefix_spec in E2 as [t E2]. unfold escaped_quote in E2. cbn [append] in E2.
    pose proof (no_quote_written r x V N Wr) as Hq. rewrite has_all_c in Hq. apply negb_false_iff in Hq.
    destruct x as [|a [|b x']]; cbn [append] in E2.
    - discriminate E2.
    - injection E2 as Ea E2. rewrite Ea in P. vm_compute in P. discriminate P.
    - injection E2 as Ea Eb E2. rewrite Eb in Hq. cbn in Hq. rewrite andb_false_r in Hq. discriminate Hq. }
  rewrite (scan_rune_hex_written r x rest V N Wr).
  apply until_plain. now apply (no_quote_written r).
Qed.
Lemma QuoteRune_no_nl ip r : has nl (QuoteRune ip r) = false.
Proof.
  unfold QuoteRune. change (String squote ?x) with (String squote "" ++ x)%string. rewrite !has_app.
  set (r' := if valid_rune r then r else RuneError).
  assert (V : valid_rune r' = true) by (unfold r'; destruct (valid_rune r) eqn:E; [exact E|reflexivity]).
  rewrite (not_nl_written squote r' _ (or_intror eq_refl) V (escape_written ip squote r' V)). reflexivity.
Qed.
