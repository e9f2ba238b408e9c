(** Proofs_Num.v -- integer literals. *)
From Coq Require Import ZArith NArith List String Ascii Bool Lia.
From Verif Require Import Base Model_Lex Model_Parser Proofs_Lex Spec_Text.
Import ListNotations.
Local Open Scope string_scope.
Local Open Scope Z_scope.

Lemma string_snoc (P : string -> Prop) : P "" -> (forall s c, P s -> P (s ++ String c "")%string) -> forall s, P s.
Proof.
  intros H0 H1 s. rewrite <- (string_of_list_ascii_of_string s).
  induction (list_ascii_of_string s) as [|c l IH] using rev_ind; [exact H0|].
  assert (E : string_of_list_ascii (l ++ [c]) = (string_of_list_ascii l ++ String c "")%string).
  { clear. induction l as [|d l IH]; [reflexivity|]. cbn. now rewrite IH. }
  rewrite E. now apply H1.
Qed.

Lemma all_ascii (P : ascii -> Prop) : (forall n, (n < 256)%nat -> P (ascii_of_nat n)) -> forall c, P c.
Proof. intros H c. rewrite <- (ascii_nat_embedding c). apply H. apply nat_ascii_bounded. Qed.

Lemma digit_iff base c d : base <= 16 -> (digit base c d <-> digit_val c = Some d /\ d < base).
Proof.
  intros B. split.
  - intros (n & -> & L & G). split; [|exact L].
    assert (N : (n < 16)%nat) by lia. clear L B.
    do 16 (destruct n as [|n]; [cbn in G; destruct G as [[= <-]|[= <-]]; reflexivity|]). lia.
  - intros [E L]. assert (D : d < 16) by lia. clear B.
    exists (Z.to_nat d).
    assert (0 <= d /\ (String.get (Z.to_nat d) "0123456789abcdef" = Some c \/ String.get (Z.to_nat d) "0123456789ABCDEF" = Some c)).
    { clear L. revert E D.
      destruct c as [[] [] [] [] [] [] [] []]; cbn; try discriminate; intros [= <-] D; try (exfalso; lia);
        (split; [lia|]); (left; reflexivity) || (right; reflexivity). }
    split; [lia|]. tauto.
Qed.

Lemma digits_val_app base a s t :
  digits_val base a (s ++ t) = match digits_val base a s with Some v => digits_val base v t | None => None end.
Proof.
  revert a. induction s as [|c s IH]; intros a; [reflexivity|]. cbn.
  destruct (digit_val c) as [d|]; [|reflexivity]. destruct (d <? base); [apply IH|reflexivity].
Qed.
Lemma digits_val_snoc base a s c :
  digits_val base a (s ++ String c "") =
  match digits_val base a s with
  | Some v => match digit_val c with Some d => if d <? base then Some (v * base + d) else None | None => None end
  | None => None
  end.
Proof. rewrite digits_val_app. destruct (digits_val base a s); [|reflexivity]. cbn. now destruct (digit_val c). Qed.

Lemma snoc_not_empty s c : (s ++ String c "")%string <> "".
Proof. now destruct s. Qed.

Lemma numeral_val base s v : base <= 16 -> numeral base s v -> digits_val base 0 s = Some v /\ s <> "".
Proof.
  intros B. induction 1 as [c d D|s v c d H [IH _] D].
  - apply digit_iff in D as [D L]; [|exact B]. cbn. rewrite D. destruct (Z.ltb_spec d base); [|lia]. easy.
  - apply digit_iff in D as [D L]; [|exact B]. split; [|apply snoc_not_empty].
    rewrite digits_val_snoc, IH, D. destruct (Z.ltb_spec d base); [easy|lia].
Qed.
Lemma val_numeral base s v : base <= 16 -> digits_val base 0 s = Some v -> s <> "" -> numeral base s v.
Proof.
  intros B. revert v. induction s as [|s c IH] using string_snoc; intros v E N; [easy|].
  rewrite digits_val_snoc in E. destruct (digits_val base 0 s) as [u|] eqn:U; [|discriminate].
  destruct (digit_val c) as [d|] eqn:D; [|discriminate]. destruct (Z.ltb_spec d base) as [L|]; [|discriminate].
  injection E as <-. assert (Dg : digit base c d) by (now apply digit_iff).
  destruct s as [|c0 s]; [injection U as <-; now constructor|]. constructor; [now apply IH|exact Dg].
Qed.
Lemma digit_val_nonneg c d : digit_val c = Some d -> 0 <= d.
Proof.
  unfold digit_val. destruct (between 48 57 c) eqn:E1; [apply between_iff in E1; intros [= <-]; lia|].
  destruct (between 97 122 c) eqn:E2; [apply between_iff in E2; intros [= <-]; lia|].
  destruct (between 65 90 c) eqn:E3; [apply between_iff in E3; intros [= <-]; lia|]. discriminate.
Qed.
Lemma digits_val_nonneg base s : 0 <= base -> forall a v, 0 <= a -> digits_val base a s = Some v -> 0 <= v.
Proof.
  intros B. induction s as [|c s IH]; intros a v A E; [cbn in E; congruence|]. cbn in E.
  destruct (digit_val c) as [d|] eqn:D; [|discriminate]. destruct (d <? base); [|discriminate].
  apply (IH (a * base + d)); [|exact E]. apply digit_val_nonneg in D. nia.
Qed.
Lemma numeral_nonneg base s v : 0 <= base <= 16 -> numeral base s v -> 0 <= v.
Proof. intros B H. destruct (numeral_val base s v (proj2 B) H) as [E _]. apply (digits_val_nonneg base s) with (a := 0) in E; lia. Qed.

(** ---------- the classes of digits ---------- *)

Definition class_ok (f : ascii -> bool) (base : Z) : Prop :=
  forall c, f c = true <-> exists d, digit_val c = Some d /\ d < base.
Lemma class_lemma (f : ascii -> bool) base : (forall c, f c = match digit_val c with Some d => d <? base | None => false end) -> class_ok f base.
Proof.
  intros H c. rewrite H. destruct (digit_val c) as [d|]; [rewrite Z.ltb_lt|].
  - split; [intros; now exists d | intros (d' & [= <-] & L); exact L].
  - split; [discriminate | intros (d & E & _); discriminate].
Qed.
Lemma bin_ok : class_ok is_bin 2.
Proof. apply class_lemma. intros c. destruct c as [[] [] [] [] [] [] [] []]; reflexivity. Qed.
Lemma oct_ok : class_ok is_oct 8.
Proof. apply class_lemma. intros c. destruct c as [[] [] [] [] [] [] [] []]; reflexivity. Qed.
Lemma dec_ok : class_ok is_dec 10.
Proof. apply class_lemma. intros c. destruct c as [[] [] [] [] [] [] [] []]; reflexivity. Qed.
Lemma hex_ok : class_ok is_hex 16.
Proof. apply class_lemma. intros c. destruct c as [[] [] [] [] [] [] [] []]; reflexivity. Qed.

Lemma class_val f base s : class_ok f base -> forall a, (exists v, digits_val base a s = Some v) <-> all_c f s = true.
Proof.
  intros C. induction s as [|c s IH]; intros a; cbn; [split; [easy|now exists a]|].
  rewrite andb_true_iff, (C c), <- (IH (match digit_val c with Some d => a * base + d | None => 0 end)).
  destruct (digit_val c) as [d|].
  - destruct (Z.ltb_spec d base).
    + split; [intros H1; split; [now exists d|exact H1] | now intros [_ H1]].
    + split; [now intros [v E] | intros [(d' & [= <-] & L) _]; lia].
  - split; [now intros [v E] | now intros [(d' & E & _) _]].
Qed.
Lemma numeral_class f base s v : class_ok f base -> base <= 16 -> numeral base s v -> all_c f s = true /\ s <> "".
Proof.
  intros C B H. destruct (numeral_val base s v B H) as [E N]. split; [|exact N].
  apply (proj1 (class_val f base s C 0)). now exists v.
Qed.
Lemma class_numeral f base s : class_ok f base -> base <= 16 -> all_c f s = true -> s <> "" -> exists v, numeral base s v.
Proof.
  intros C B H N. destruct (proj2 (class_val f base s C 0) H) as [v E]. exists v. now apply val_numeral.
Qed.

(** ---------- scanning ---------- *)

Definition starts (f : ascii -> bool) (s : string) : bool := match s with String c _ => f c | EmptyString => false end.

Lemma span_app f s rest : all_c f s = true -> starts f rest = false -> span f (s ++ rest) = (s, rest).
Proof.
  intros H R. induction s as [|c s IH]; cbn in *.
  - destruct rest as [|c r]; [reflexivity|]. cbn in *. now rewrite R.
  - apply andb_true_iff in H as [H1 H2]. rewrite H1, IH by exact H2. reflexivity.
Qed.
Lemma span_inv f s a b : span f s = (a, b) -> s = (a ++ b)%string /\ all_c f a = true /\ starts f b = false.
Proof.
  revert a b. induction s as [|c s IH]; intros a b E; cbn in E; [injection E as <- <-; easy|].
  destruct (f c) eqn:F.
  - destruct (span f s) as [a' b'] eqn:S. injection E as <- <-. destruct (IH a' b' eq_refl) as (-> & H1 & H2).
    cbn. rewrite F. auto.
  - injection E as <- <-. cbn. auto.
Qed.

Lemma separated_word rest : separated rest <-> word_ends rest = true.
Proof.
  destruct rest as [|c r]; cbn; [easy|]. split.
  - intros H. apply negb_true_iff. destruct (is_word c) eqn:E; [|reflexivity]. exfalso. apply H. clear H. revert E.
    destruct c as [[] [] [] [] [] [] [] []]; cbn; intros E; try discriminate E; tauto.
  - intros H I. revert H.
    assert (W : is_word c = true).
    { cbn in I. repeat (destruct I as [<-|I]; [reflexivity|]). easy. }
    now rewrite W.
Qed.
Lemma separated_not f rest : (forall c, f c = true -> is_word c = true) -> separated rest -> starts f rest = false.
Proof.
  intros H S. apply separated_word in S. destruct rest as [|c r]; [reflexivity|]. cbn in *.
  destruct (f c) eqn:E; [|reflexivity]. apply H in E. now rewrite E in S.
Qed.
Lemma bin_word c : is_bin c = true -> is_word c = true.
Proof. destruct c as [[] [] [] [] [] [] [] []]; cbn; congruence. Qed.
Lemma oct_word c : is_oct c = true -> is_word c = true.
Proof. destruct c as [[] [] [] [] [] [] [] []]; cbn; congruence. Qed.
Lemma dec_word c : is_dec c = true -> is_word c = true.
Proof. destruct c as [[] [] [] [] [] [] [] []]; cbn; congruence. Qed.
Lemma hex_word c : is_hex c = true -> is_word c = true.
Proof. destruct c as [[] [] [] [] [] [] [] []]; cbn; congruence. Qed.

Lemma some_digits_app f p s rest : all_c f s = true -> s <> "" -> starts f rest = false ->
  some_digits f p (s ++ rest) = Some (p ++ s, rest)%string.
Proof. intros H N R. unfold some_digits. rewrite span_app by assumption. now destruct s. Qed.
Lemma some_digits_inv f p s a b : some_digits f p s = Some (a, b) ->
  exists d, a = (p ++ d)%string /\ s = (d ++ b)%string /\ d <> "" /\ all_c f d = true /\ starts f b = false.
Proof.
  unfold some_digits. destruct (span f s) as [d r] eqn:S. apply span_inv in S as (-> & H1 & H2).
  destruct d as [|c d]; [discriminate|]. intros [= <- <-]. exists (String c d).
  split; [reflexivity|]. split; [reflexivity|]. split; [easy|]. auto.
Qed.

(** ---------- parsing a literal ---------- *)

Lemma range_fits k z : in_range k z = true <-> fits k z.
Proof.
  unfold in_range, fits, imin, imax. rewrite andb_true_iff, !Z.leb_le. destruct (isigned k); lia.
Qed.
Lemma bits_pos k : 8 <= ibits k <= 64.
Proof. destruct k; cbn; lia. Qed.

Lemma ParseUint_val base bits s v : digits_val base 0 s = Some v -> s <> "" ->
  ParseUint base bits s = if v <? 2 ^ bits then Some v else None.
Proof. intros E N. unfold ParseUint. destruct s; [easy|]. now rewrite E. Qed.

Lemma ParseInt_plain base bits s v : 0 < bits <= 64 -> 0 <= v -> digits_val base 0 s = Some v -> s <> "" ->
  starts (one_of "+-") s = false ->
  ParseInt base bits s = if v <? 2 ^ (bits - 1) then Some v else None.
Proof.
  intros B P E N St. destruct s as [|c s]; [easy|]. cbn [starts] in St. unfold one_of in St. cbn in St.
  apply orb_false_iff in St as [S1 S2]. rewrite orb_false_r in S2. cbn [ParseInt].
  rewrite S1, S2. cbn [orb]. rewrite (ParseUint_val base 64 (String c s) v E) by easy.
  assert (2 ^ (bits - 1) < 2 ^ 64) by (apply Z.pow_lt_mono_r; lia).
  destruct (Z.ltb_spec v (2 ^ 64)); destruct (Z.ltb_spec v (2 ^ (bits - 1))); destruct (Z.leb_spec (2 ^ (bits - 1)) v); lia || reflexivity.
Qed.
Lemma ParseInt_plus base bits s v : 0 < bits <= 64 -> 0 <= v -> digits_val base 0 s = Some v -> s <> "" ->
  ParseInt base bits (String "+" s) = if v <? 2 ^ (bits - 1) then Some v else None.
Proof.
  intros B P E N. cbn [ParseInt]. change (Ascii.eqb "+" "-") with false. change (Ascii.eqb "+" "+") with true. cbn [orb].
  rewrite (ParseUint_val base 64 s v E N).
  assert (2 ^ (bits - 1) < 2 ^ 64) by (apply Z.pow_lt_mono_r; lia).
  destruct (Z.ltb_spec v (2 ^ 64)); destruct (Z.ltb_spec v (2 ^ (bits - 1))); destruct (Z.leb_spec (2 ^ (bits - 1)) v); lia || reflexivity.
Qed.
Lemma ParseInt_minus base bits s v : 0 < bits <= 64 -> 0 <= v -> digits_val base 0 s = Some v -> s <> "" ->
  ParseInt base bits (String "-" s) = if v <=? 2 ^ (bits - 1) then Some (- v) else None.
Proof.
  intros B P E N. cbn [ParseInt]. change (Ascii.eqb "-" "-") with true. cbn [orb].
  rewrite (ParseUint_val base 64 s v E N).
  assert (2 ^ (bits - 1) < 2 ^ 64) by (apply Z.pow_lt_mono_r; lia).
  destruct (Z.ltb_spec v (2 ^ 64)); destruct (Z.leb_spec v (2 ^ (bits - 1))); destruct (Z.ltb_spec (2 ^ (bits - 1)) v); lia || reflexivity.
Qed.

(** parseInt or parseUint, by the signedness of the type *)
Definition parse_kind (k : ikind) (s : string) : option Z :=
  if isigned k then parseInt (ibits k) s else parseUint (ibits k) s.
Definition scan_kind (k : ikind) (s : string) : option (string * string) :=
  if isigned k then scan_int s else scan_uint s.
Definition fit (k : ikind) (z : Z) : option Z := if in_range k z then Some z else None.

Lemma fit_nonneg k v : 0 <= v -> fit k v = if v <? (if isigned k then 2 ^ (ibits k - 1) else 2 ^ ibits k) then Some v else None.
Proof.
  intros H. unfold fit. pose proof (bits_pos k). 
  assert (0 < 2 ^ (ibits k - 1)) by (apply Z.pow_pos_nonneg; lia).
  destruct (in_range k v) eqn:R.
  - apply range_fits in R. unfold fits in R. destruct (isigned k); zb; easy.
  - assert (N : ~ fits k v) by (rewrite <- range_fits, R; easy). unfold fits in N. destruct (isigned k); zb; easy.
Qed.

Definition parse_base (k : ikind) (base : Z) (s : string) : option Z :=
  if isigned k then ParseInt base (ibits k) s else ParseUint base (ibits k) s.
Lemma parse_kind_prefix k s : parse_kind k s = by_prefix (parse_base k) s.
Proof. unfold parse_kind, parse_base, parseInt, parseUint. now destruct (isigned k). Qed.

Lemma parse_base_numeral k base s v : 0 <= base <= 16 -> numeral base s v -> parse_base k base s = fit k v.
Proof.
  intros B H. pose proof (numeral_nonneg base s v B H) as P. destruct (numeral_val base s v (proj2 B) H) as [E N].
  rewrite fit_nonneg by exact P. unfold parse_base. pose proof (bits_pos k). destruct (isigned k).
  - apply ParseInt_plain; try assumption; [lia|].
    destruct s as [|c s]; [easy|]. cbn [starts]. destruct (one_of "+-" c) eqn:O; [|reflexivity]. exfalso.
    unfold one_of in O. cbn in O. rewrite orb_false_r in O. apply orb_true_iff in O. cbn in E.
    destruct O as [O|O]; apply Ascii.eqb_eq in O; subst c; discriminate E.
  - now apply ParseUint_val.
Qed.

Lemma one_of_word l c : forallb is_word (list_ascii_of_string l) = true -> one_of l c = true -> is_word c = true.
Proof.
  intros H O. unfold one_of in O. apply existsb_exists in O as (d & I & E). apply Ascii.eqb_eq in E. subst d.
  rewrite forallb_forall in H. now apply H.
Qed.

Lemma by_prefix_plain p c s : c <> "0"%char -> by_prefix p (String c s) = p 10 (String c s).
Proof. intros N. cbn. destruct s; [reflexivity|]. destruct (Ascii.eqb_spec c "0"); [easy|reflexivity]. Qed.

Lemma scan_radix_other signs c s : c <> "0"%char -> scan_num signs (String c s) = scan_dec signs (String c s).
Proof. intros N. unfold scan_num, scan_radix. destruct s; [reflexivity|]. destruct (Ascii.eqb_spec c "0"); [easy|reflexivity]. Qed.

Definition kind_signs (k : ikind) : string := if isigned k then "+-" else "+".
Lemma scan_kind_num k s : scan_kind k s = scan_num (kind_signs k) s.
Proof. unfold scan_kind, scan_int, scan_uint, kind_signs. now destruct (isigned k). Qed.

Lemma sign_not_digit k c : is_dec c = true -> one_of (kind_signs k) c = false.
Proof. intros D. destruct (one_of (kind_signs k) c) eqn:O; [|reflexivity]. exfalso. revert D O. unfold kind_signs.
  destruct (isigned k); destruct c as [[] [] [] [] [] [] [] []]; cbn; congruence. Qed.

Lemma scan_dec_digits k s rest : all_c is_dec s = true -> s <> "" -> starts is_dec rest = false ->
  scan_dec (kind_signs k) (s ++ rest) = Some (s, rest).
Proof.
  intros H N R. destruct s as [|c s]; [easy|]. cbn [append scan_dec]. cbn [all_c] in H. apply andb_true_iff in H as [H1 H2].
  rewrite sign_not_digit by exact H1. change (String c (s ++ rest)) with (String c s ++ rest)%string.
  rewrite some_digits_app; [reflexivity| |easy|exact R]. cbn. now rewrite H1.
Qed.

Lemma oct_dec c : is_oct c = true -> is_dec c = true.
Proof. destruct c as [[] [] [] [] [] [] [] []]; cbn; congruence. Qed.
Lemma dec_not_radix c : is_dec c = true -> one_of "bB" c = false /\ one_of "oO" c = false /\ one_of "xX" c = false.
Proof. destruct c as [[] [] [] [] [] [] [] []]; cbn; try discriminate; auto. Qed.

(** A literal is scanned as a whole, and parsed to its value if that fits. *)
Lemma unsigned_scan k s v rest : unsigned_literal s v -> separated rest ->
  scan_kind k (s ++ rest) = Some (s, rest) /\ parse_kind k s = fit k v.
Proof.
  intros L S. rewrite scan_kind_num, parse_kind_prefix.
  pose proof (separated_not _ _ dec_word S) as Sd.
  destruct L as [|c s v H N|s v H|p s v P H|p s v P H|p s v P H].
  - split.
    + assert (R : scan_radix ("0" ++ rest) = None).
      { apply separated_word in S. destruct rest as [|c r]; [reflexivity|]. cbn [word_ends] in S. cbn [append scan_radix].
        change (Ascii.eqb "0" "0") with true. cbn [negb].
        destruct (one_of "bB" c) eqn:O1; [now rewrite (one_of_word "bB" c eq_refl O1) in S|].
        destruct (one_of "oO" c) eqn:O2; [now rewrite (one_of_word "oO" c eq_refl O2) in S|].
        destruct (one_of "xX" c) eqn:O3; [now rewrite (one_of_word "xX" c eq_refl O3) in S|]. reflexivity. }
      unfold scan_num. rewrite R. now apply scan_dec_digits.
    + cbn [by_prefix]. apply parse_base_numeral; [lia|]. constructor. apply digit_iff; [lia|]. split; [reflexivity|lia].
  - destruct (numeral_class is_dec 10 _ v dec_ok ltac:(lia) H) as [A _]. split.
    + cbn [append]. rewrite scan_radix_other by exact N. now apply (scan_dec_digits k (String c s) rest).
    + rewrite by_prefix_plain by exact N. apply parse_base_numeral; [lia|exact H].
  - destruct (numeral_class is_oct 8 _ v oct_ok ltac:(lia) H) as [A Ne].
    assert (A' : all_c is_dec s = true) by (eapply all_c_impl; [exact oct_dec|exact A]).
    destruct s as [|c s]; [easy|]. pose proof A' as A''. cbn [all_c] in A''. apply andb_true_iff in A'' as [A1 _].
    destruct (dec_not_radix c A1) as (O1 & O2 & O3). split.
    + unfold scan_num. cbn [append scan_radix]. change (Ascii.eqb "0" "0") with true. cbn [negb].
      rewrite O1, O2, O3. apply (scan_dec_digits k (String "0" (String c s)) rest); [|easy|exact Sd].
      cbn [all_c]. exact A'.
    + cbn [by_prefix]. change (Ascii.eqb "0" "0") with true. cbn match. rewrite O1, O2, O3.
      apply parse_base_numeral; [lia|].
      destruct (numeral_val 8 _ v ltac:(lia) H) as [E _]. apply val_numeral; [lia| |easy].
      cbn [digits_val]. change (digit_val "0") with (Some 0). cbn match. change (0 <? 8) with true. cbn match.
      exact E.
  - destruct (numeral_class is_bin 2 _ v bin_ok ltac:(lia) H) as [A N]. 
    pose proof (separated_not _ _ bin_word S) as Sb.
    assert (E : forall c, one_of "bB" c = true -> scan_num (kind_signs k) (String "0" (String c s) ++ rest) = Some (String "0" (String c s), rest)).
    { intros c O. unfold scan_num. cbn [append scan_radix]. change (Ascii.eqb "0" "0") with true. cbn [negb]. rewrite O.
      now rewrite some_digits_app by assumption. }
    destruct P as [-> | ->]; (split; [apply E; reflexivity | cbn; apply parse_base_numeral; [lia|exact H]]).
  - destruct (numeral_class is_oct 8 _ v oct_ok ltac:(lia) H) as [A N]. 
    pose proof (separated_not _ _ oct_word S) as Sb.
    assert (E : forall c, one_of "bB" c = false -> one_of "oO" c = true -> scan_num (kind_signs k) (String "0" (String c s) ++ rest) = Some (String "0" (String c s), rest)).
    { intros c O1 O. unfold scan_num. cbn [append scan_radix]. change (Ascii.eqb "0" "0") with true. cbn [negb]. rewrite O1, O.
      now rewrite some_digits_app by assumption. }
    destruct P as [-> | ->]; (split; [apply E; reflexivity | cbn; apply parse_base_numeral; [lia|exact H]]).
  - destruct (numeral_class is_hex 16 _ v hex_ok ltac:(lia) H) as [A N]. 
    pose proof (separated_not _ _ hex_word S) as Sb.
    assert (E : forall c, one_of "bB" c = false -> one_of "oO" c = false -> one_of "xX" c = true -> scan_num (kind_signs k) (String "0" (String c s) ++ rest) = Some (String "0" (String c s), rest)).
    { intros c O1 O2 O. unfold scan_num. cbn [append scan_radix]. change (Ascii.eqb "0" "0") with true. cbn [negb]. rewrite O1, O2, O.
      now rewrite some_digits_app by assumption. }
    destruct P as [-> | ->]; (split; [apply E; reflexivity | cbn; apply parse_base_numeral; [lia|exact H]]).
Qed.

Lemma signed_scan k s v rest : isigned k = true -> signed_literal s v -> separated rest ->
  scan_kind k (s ++ rest) = Some (s, rest) /\ parse_kind k s = fit k v.
Proof.
  intros K L S. pose proof (bits_pos k) as B. pose proof (separated_not _ _ dec_word S) as Sd.
  destruct L as [s v H|s v H|s v H]; [now apply unsigned_scan|..];
    rewrite scan_kind_num, parse_kind_prefix;
    destruct (numeral_class is_dec 10 _ v dec_ok ltac:(lia) H) as [A N];
    destruct (numeral_val 10 s v ltac:(lia) H) as [E _];
    pose proof (numeral_nonneg 10 s v ltac:(lia) H) as P.
  - split.
    + cbn [append]. rewrite scan_radix_other by easy. cbn [scan_dec]. unfold kind_signs. rewrite K.
      change (one_of "+-" "+") with true. cbn match. now rewrite some_digits_app.
    + rewrite by_prefix_plain by easy. unfold parse_base. rewrite K.
      rewrite (ParseInt_plus 10 (ibits k) s v) by (assumption || lia). rewrite fit_nonneg, K by exact P. reflexivity.
  - split.
    + cbn [append]. rewrite scan_radix_other by easy. cbn [scan_dec]. unfold kind_signs. rewrite K.
      change (one_of "+-" "-") with true. cbn match. now rewrite some_digits_app.
    + rewrite by_prefix_plain by easy. unfold parse_base. rewrite K.
      rewrite (ParseInt_minus 10 (ibits k) s v) by (assumption || lia).
      unfold fit. assert (0 < 2 ^ (ibits k - 1)) by (apply Z.pow_pos_nonneg; lia).
      destruct (in_range k (- v)) eqn:R.
      * apply range_fits in R. unfold fits in R. rewrite K in R. zb. reflexivity.
      * assert (Nf : ~ fits k (- v)) by (rewrite <- range_fits, R; easy). unfold fits in Nf. rewrite K in Nf. zb. reflexivity.
Qed.

Lemma get_int_kind k s : get_int k s =
  match scan_kind k s with
  | None => Err
  | Some (text, rest) => match parse_kind k text with Some z => Ok (VInt k z, rest) | None => Err end
  end.
Proof.
  unfold get_int, scan_kind, parse_kind. destruct (isigned k).
  - destruct (scan_int s) as [[a b]|]; cbn; [|reflexivity]. now destruct (parseInt (ibits k) a).
  - destruct (scan_uint s) as [[a b]|]; cbn; [|reflexivity]. now destruct (parseUint (ibits k) a).
Qed.

Theorem get_int_literal k s v rest : literal k s v -> separated rest ->
  get_int k (s ++ rest) = if in_range k v then Ok (VInt k v, rest) else Err.
Proof.
  intros L S. rewrite get_int_kind. unfold literal in L.
  assert (H : scan_kind k (s ++ rest) = Some (s, rest) /\ parse_kind k s = fit k v).
  { destruct (isigned k) eqn:K; [now apply signed_scan|now apply unsigned_scan]. }
  destruct H as [-> ->]. unfold fit. now destruct (in_range k v).
Qed.

(** What is accepted is a literal. *)
Lemma parse_base_inv k base s z : 2 <= base <= 16 -> all_c (fun c => match digit_val c with Some _ => true | None => false end) s = true ->
  parse_base k base s = Some z -> numeral base s z /\ in_range k z = true.
Proof.
  intros B D E.
  assert (N : s <> "") by (intros ->; unfold parse_base in E; destruct (isigned k); discriminate E).
  assert (X : exists v, digits_val base 0 s = Some v).
  { unfold parse_base in E. destruct (isigned k).
    - destruct s as [|c s]; [easy|]. cbn [all_c] in D. apply andb_true_iff in D as [D _].
      cbn [ParseInt] in E. destruct (Ascii.eqb_spec c "-") as [->|]; [discriminate D|].
      destruct (Ascii.eqb_spec c "+") as [->|]; [discriminate D|]. cbn [orb] in E. unfold ParseUint in E.
      destruct (digits_val base 0 (String c s)) as [v|]; [now exists v|discriminate].
    - unfold ParseUint in E. destruct s; [easy|]. destruct (digits_val base 0 (String a s)) as [v|]; [now exists v|discriminate]. }
  destruct X as [v X]. assert (H : numeral base s v) by (apply val_numeral; [lia|exact X|exact N]).
  rewrite (parse_base_numeral k base s v) in E by (lia || exact H). unfold fit in E.
  destruct (in_range k v) eqn:R; [|discriminate]. injection E as <-. auto.
Qed.

Lemma class_digits f base s : class_ok f base -> all_c f s = true ->
  all_c (fun c => match digit_val c with Some _ => true | None => false end) s = true.
Proof. intros C. apply all_c_impl. intros c H. apply C in H as (d & -> & _). reflexivity. Qed.

Theorem get_int_inv k s k' z rest : get_int k s = Ok (VInt k' z, rest) ->
  k' = k /\ in_range k z = true /\ exists text, s = (text ++ rest)%string /\ literal k text z.
Proof.
  rewrite get_int_kind. destruct (scan_kind k s) as [[text r]|] eqn:Sc; [|discriminate].
  destruct (parse_kind k text) as [z'|] eqn:P; [|discriminate]. intros [= <- <- <-]. split; [reflexivity|].
  rewrite scan_kind_num in Sc. rewrite parse_kind_prefix in P. unfold scan_num in Sc.
  assert (U : forall u, unsigned_literal text u -> literal k text u).
  { intros u H. unfold literal. destruct (isigned k); [now constructor|exact H]. }
  destruct (scan_radix s) as [x|] eqn:R.
  - injection Sc as ->. unfold scan_radix in R. destruct s as [|c0 [|c s]]; [discriminate..|].
    destruct (Ascii.eqb_spec c0 "0") as [->|]; [|discriminate]. cbn [negb] in R.
    destruct (one_of "bB" c) eqn:O1; [|destruct (one_of "oO" c) eqn:O2; [|destruct (one_of "xX" c) eqn:O3; [|discriminate]]];
      apply some_digits_inv in R as (d & -> & -> & N & A & _); cbn [append by_prefix] in P;
      change (Ascii.eqb "0" "0") with true in P; cbn match in P.
    + rewrite O1 in P. apply parse_base_inv in P as [P F]; [|lia|now apply (class_digits is_bin 2 _ bin_ok)].
      split; [exact F|]. exists (String "0" (String c d)). split; [reflexivity|]. apply U.
      apply (lit_0b (String "0" (String c "")) d); [|exact P]. unfold one_of in O1. cbn in O1. rewrite orb_false_r in O1.
      apply orb_true_iff in O1. destruct O1 as [O1|O1]; apply Ascii.eqb_eq in O1; subst c; auto.
    + rewrite O1, O2 in P. apply parse_base_inv in P as [P F]; [|lia|now apply (class_digits is_oct 8 _ oct_ok)].
      split; [exact F|]. exists (String "0" (String c d)). split; [reflexivity|]. apply U.
      apply (lit_0o (String "0" (String c "")) d); [|exact P]. unfold one_of in O2. cbn in O2. rewrite orb_false_r in O2.
      apply orb_true_iff in O2. destruct O2 as [O2|O2]; apply Ascii.eqb_eq in O2; subst c; auto.
    + rewrite O1, O2, O3 in P. apply parse_base_inv in P as [P F]; [|lia|now apply (class_digits is_hex 16 _ hex_ok)].
      split; [exact F|]. exists (String "0" (String c d)). split; [reflexivity|]. apply U.
      apply (lit_0x (String "0" (String c "")) d); [|exact P]. unfold one_of in O3. cbn in O3. rewrite orb_false_r in O3.
      apply orb_true_iff in O3. destruct O3 as [O3|O3]; apply Ascii.eqb_eq in O3; subst c; auto.
  - clear R. unfold scan_dec in Sc. destruct s as [|c s]; [discriminate|].
    destruct (one_of (kind_signs k) c) eqn:O.
    + apply some_digits_inv in Sc as (d & -> & -> & N & A & _). cbn [append] in *.
      destruct (class_numeral is_dec 10 d dec_ok ltac:(lia) A N) as [v H].
      destruct (numeral_val 10 d v ltac:(lia) H) as [E _]. pose proof (numeral_nonneg 10 d v ltac:(lia) H) as Pv.
      pose proof (bits_pos k) as B.
      assert (C : c = "+"%char \/ (c = "-"%char /\ isigned k = true)).
      { clear -O. unfold one_of, kind_signs in O. destruct (isigned k); cbn in O; rewrite orb_false_r in O.
        - apply orb_true_iff in O. destruct O as [O|O]; apply Ascii.eqb_eq in O; auto.
        - apply Ascii.eqb_eq in O; auto. }
      rewrite by_prefix_plain in P by (destruct C as [->|[-> _]]; easy).
      unfold parse_base in P. unfold literal. destruct (isigned k) eqn:K.
      * destruct C as [->|[-> _]].
        -- rewrite (ParseInt_plus 10 (ibits k) d v) in P by (assumption || lia).
           destruct (Z.ltb_spec v (2 ^ (ibits k - 1))); [|discriminate]. injection P as <-.
           split; [apply range_fits; unfold fits; rewrite K; lia|]. exists (String "+" d). split; [reflexivity|]. now constructor.
        -- rewrite (ParseInt_minus 10 (ibits k) d v) in P by (assumption || lia).
           destruct (Z.leb_spec v (2 ^ (ibits k - 1))); [|discriminate]. injection P as <-.
           assert (0 < 2 ^ (ibits k - 1)) by (apply Z.pow_pos_nonneg; lia).
           split; [apply range_fits; unfold fits; rewrite K; lia|]. exists (String "-" d). split; [reflexivity|]. now constructor.
      * destruct C as [->|[_ C]]; [|discriminate C]. cbn in P. discriminate P.
    + apply some_digits_inv in Sc as (d & -> & E & N & A & _). cbn [append] in *.
      pose proof (class_digits is_dec 10 d dec_ok A) as Dg.
      destruct d as [|c0 d]; [easy|]. injection E as -> ->.
      destruct (Ascii.eqb_spec c0 "0") as [->|N0].
      * destruct d as [|c1 d].
        -- cbn in P. apply parse_base_inv in P as [P F]; [|lia|reflexivity].
           apply numeral_val in P as [P _]; [|lia]. injection P as <-.
           split; [exact F|]. exists "0". split; [reflexivity|]. apply U. constructor.
        -- cbn [by_prefix] in P. change (Ascii.eqb "0" "0") with true in P. cbn match in P.
           pose proof A as A'. cbn [all_c] in A'. apply andb_true_iff in A' as [_ A']. apply andb_true_iff in A' as [A1 _].
           destruct (dec_not_radix c1 A1) as (O1 & O2 & O3). rewrite O1, O2, O3 in P.
           apply parse_base_inv in P as [P F]; [|lia|exact Dg].
           split; [exact F|]. exists (String "0" (String c1 d)). split; [reflexivity|]. apply U. apply lit_octal.
           apply numeral_val in P as [P _]; [|lia]. apply val_numeral; [lia| |easy].
           cbn [digits_val] in P. change (digit_val "0") with (Some 0) in P. cbn match in P. change (0 <? 8) with true in P.
           cbn match in P. exact P.
      * rewrite by_prefix_plain in P by exact N0. apply parse_base_inv in P as [P F]; [|lia|exact Dg].
        split; [exact F|]. exists (String c0 d). split; [reflexivity|]. apply U. now constructor.
Qed.

(** ---------- printing ---------- *)

Lemma digit_char d : 0 <= d < 10 -> digit 10 (chr (48 + d)) d.
Proof.
  intros H. apply digit_iff; [lia|]. split; [|lia]. unfold digit_val. rewrite between_chr, code_chr by lia. zb. f_equal. lia.
Qed.

Lemma dec_digits_spec fuel : forall n acc, 0 <= n < 2 ^ Z.of_nat fuel ->
  exists p, dec_digits fuel n acc = (p ++ acc)%string /\ (fuel <> 0%nat -> numeral 10 p n) /\
            (n <> 0 -> starts (Ascii.eqb "0") p = false) /\ (fuel <> 0%nat -> n = 0 -> p = "0").
Proof.
  induction fuel as [|fuel IH]; intros n acc B.
  - exists "". cbn in B |- *. repeat split; easy.
  - cbn [dec_digits]. assert (M : 0 <= n mod 10 < 10) by (apply Z.mod_pos_bound; lia).
    destruct (Z.ltb_spec n 10) as [L|L].
    + exists (String (chr (48 + n mod 10)) ""). rewrite Z.mod_small by lia. repeat split.
      * intros _. constructor. now apply digit_char.
      * intros N. cbn [starts]. rewrite eqb_code, code_chr by lia. change (code "0") with 48. zb. reflexivity.
      * intros _ ->. reflexivity.
    + assert (B' : 0 <= n / 10 < 2 ^ Z.of_nat fuel).
      { split; [apply Z.div_pos; lia|]. apply Z.div_lt_upper_bound; [lia|]. rewrite Nat2Z.inj_succ, Z.pow_succ_r in B by lia. lia. }
      assert (Fu : fuel <> 0%nat) by (intros ->; cbn in B; lia).
      destruct (IH (n / 10) (String (chr (48 + n mod 10)) acc) B') as (p & E & N & Z0 & _).
      assert (Q : n / 10 <> 0) by (assert (1 <= n / 10) by (apply Z.div_le_lower_bound; lia); lia).
      exists (p ++ String (chr (48 + n mod 10)) "")%string. repeat split.
      * rewrite E, app_str_assoc. reflexivity.
      * intros _. replace n with (n / 10 * 10 + n mod 10) at 2 by (pose proof (Z.div_mod n 10); lia).
        constructor; [now apply N|now apply digit_char].
      * intros _. specialize (Z0 Q). specialize (N Fu). destruct p as [|c p]; [|exact Z0].
        apply numeral_val in N as [_ N]; [easy|lia].
      * intros _ ->. lia.
Qed.

Lemma dec_of_nonneg_spec n : 0 <= n -> numeral 10 (dec_of_nonneg n) n /\ unsigned_literal (dec_of_nonneg n) n.
Proof.
  intros H. unfold dec_of_nonneg.
  destruct (dec_digits_spec (S (Z.to_nat (Z.log2 n))) n "") as (p & E & N & Z0 & Z1).
  { split; [exact H|]. rewrite Nat2Z.inj_succ, Z2Nat.id by apply Z.log2_nonneg.
    destruct (Z.eq_dec n 0) as [->|]; [reflexivity|]. apply Z.log2_spec. lia. }
  rewrite E, app_str_nil_r. specialize (N ltac:(easy)). split; [exact N|].
  destruct (Z.eq_dec n 0) as [->|Nz].
  - rewrite (Z1 ltac:(easy) eq_refl). constructor.
  - specialize (Z0 Nz). destruct p as [|c p]; [apply numeral_val in N as [_ N]; [easy|lia]|].
    constructor; [exact N|]. cbn in Z0. intros ->. discriminate Z0.
Qed.
Lemma dec_of_literal k z : fits k z -> literal k (dec_of z) z.
Proof.
  intros F. unfold dec_of, literal. destruct (Z.ltb_spec z 0).
  - destruct (isigned k) eqn:K; [|unfold fits in F; rewrite K in F; lia].
    replace z with (- - z) at 2 by lia. apply lit_minus. apply dec_of_nonneg_spec. lia.
  - destruct (dec_of_nonneg_spec z) as [_ L]; [lia|]. destruct (isigned k); [now constructor|exact L].
Qed.

Theorem get_int_dec_of k z rest : in_range k z = true -> separated rest -> get_int k (dec_of z ++ rest) = Ok (VInt k z, rest).
Proof.
  intros R S. rewrite (get_int_literal k (dec_of z) z rest); [now rewrite R| |exact S].
  apply dec_of_literal. now apply range_fits.
Qed.
