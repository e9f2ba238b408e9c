(** Props_JsonGrammar.v -- C50: numbers and strings of JSON documents of unknown origin. *)
From Coq Require Import ZArith NArith List String Ascii Bool SpecFloat Lia.
From Verif Require Import Base Model_Names Model_Table Model_Lex Model_Float Model_Print Model_Json Spec Spec_Foreign.
From Verif Require Import Proofs_Lib Proofs_Lex Proofs_Num Proofs_Float Proofs_JsonText.
Import ListNotations.
Local Open Scope Z_scope.
Local Open Scope list_scope.
Local Open Scope string_scope.

Lemma all_digits_iff s : all_digits s <-> all_c is_dec s = true.
Proof.
  unfold all_digits. induction s as [|c s IH]; cbn [list_ascii_of_string all_c]; [split; auto|].
  rewrite Forall_cons_iff, andb_true_iff, IH. reflexivity.
Qed.
Lemma int_text_whole a : int_text a -> a <> "" /\ all_c is_dec a = true /\ whole a = true.
Proof.
  destruct 1 as [|c s D N A]; [repeat split; discriminate|]. split; [discriminate|]. apply all_digits_iff in A. cbn [all_c whole]. rewrite D, A. split; [reflexivity|].
  apply Ascii.eqb_neq in N. now rewrite N.
Qed.
Lemma whole_int_text a : all_c is_dec a = true -> whole a = true -> int_text a.
Proof.
  destruct a as [|c s]; [discriminate|]. cbn [all_c whole]. intros A W. apply andb_true_iff in A as [D A].
  destruct (Ascii.eqb_spec c "0") as [->|N]; cbn [negb orb] in W; [|constructor; auto; now apply all_digits_iff].
  apply String.eqb_eq in W. subst s. constructor.
Qed.

(** The parts of a number as the reader takes them *)
Definition num_sign (s : string) : string * string :=
  match s with String c r => if Ascii.eqb c "-" then ("-", r) else ("", s) | EmptyString => ("", s) end.
Definition num_frac (r : string) : option (string * string) :=
  match r with
  | String c r' => if Ascii.eqb c "." then match span is_dec r' with (String d ds, r'') => Some (String "." (String d ds), r'') | _ => None end else Some ("", r)
  | EmptyString => Some ("", r)
  end.
Definition num_exp (r : string) : option (string * string) :=
  match r with
  | String c r' => if one_of "eE" c then
                     let '(sg, r') := match r' with
                                      | String p r'' => if one_of "+-" p then (String p "", r'') else ("", r')
                                      | EmptyString => ("", r')
                                      end in
                     match span is_dec r' with (String d ds, r'') => Some (String c (sg ++ String d ds), r'') | _ => None end
                   else Some ("", r)
  | EmptyString => Some ("", r)
  end.
Lemma json_number_parts s : json_number s =
  let '(sign, r) := num_sign s in let '(a, r) := span is_dec r in
  if negb (whole a) then None else
  match num_frac r with None => None | Some (f, r) => match num_exp r with None => None | Some (e, r) => Some (sign ++ a ++ f ++ e, r) end end.
Proof. reflexivity. Qed.

Lemma num_sign_sound s g r : num_sign s = (g, r) -> s = g ++ r /\ In g [""; "-"].
Proof.
  destruct s as [|c s]; cbn [num_sign]; [intros [= <- <-]; cbn; auto|].
  destruct (Ascii.eqb_spec c "-") as [->|]; intros [= <- <-]; cbn; auto.
Qed.
Lemma num_frac_sound s f r : num_frac s = Some (f, r) -> s = f ++ r /\ fraction_text f.
Proof.
  destruct s as [|c s]; cbn [num_frac]; [intros [= <- <-]; split; [reflexivity|constructor]|].
  destruct (Ascii.eqb_spec c ".") as [->|]; [|intros [= <- <-]; split; [reflexivity|constructor]].
  destruct (span is_dec s) as [[|d ds] r'] eqn:SP; [discriminate|]. intros [= <- <-]. apply span_inv in SP as (-> & A & _).
  split; [reflexivity|]. constructor. split; [discriminate|now apply all_digits_iff].
Qed.
Lemma one_of_eE c : one_of "eE" c = true -> c = "e"%char \/ c = "E"%char.
Proof. unfold one_of. cbn. destruct (Ascii.eqb_spec c "e"); auto. destruct (Ascii.eqb_spec c "E"); auto. discriminate. Qed.
Lemma one_of_pm c : one_of "+-" c = true -> c = "+"%char \/ c = "-"%char.
Proof. unfold one_of. cbn. destruct (Ascii.eqb_spec c "+"); auto. destruct (Ascii.eqb_spec c "-"); auto. discriminate. Qed.
Lemma num_exp_sound s f r : num_exp s = Some (f, r) -> s = f ++ r /\ exp_text f.
Proof.
  destruct s as [|c s]; cbn [num_exp]; [intros [= <- <-]; split; [reflexivity|constructor]|].
  destruct (one_of "eE" c) eqn:O; [|intros [= <- <-]; split; [reflexivity|constructor]]. apply one_of_eE in O.
  assert (X : exists sg r', match s with String p r'' => if one_of "+-" p then (String p "", r'') else ("", s) | EmptyString => ("", s) end = (sg, r')
              /\ s = sg ++ r' /\ In sg [""; "+"; "-"]).
  { destruct s as [|p s]; [do 2 eexists; split; [reflexivity|]; cbn; auto|]. destruct (one_of "+-" p) eqn:P; (do 2 eexists; split; [reflexivity|]); [|cbn; auto].
    split; [reflexivity|]. apply one_of_pm in P as [-> | ->]; cbn; auto. }
  destruct X as (sg & r' & -> & -> & I). destruct (span is_dec r') as [[|d ds] r''] eqn:SP; [discriminate|]. intros [= <- <-].
  apply span_inv in SP as (-> & A & _). split; [cbn; now rewrite app_str_assoc|]. constructor; auto. split; [discriminate|now apply all_digits_iff].
Qed.

(** A number is read as far as it goes: what is read is a number of the grammar ... *)
Theorem C50_JSON_numbers_sound : forall s t rest, json_number s = Some (t, rest) -> s = t ++ rest /\ number_text t.
Proof.
  intros s t rest. rewrite json_number_parts. destruct (num_sign s) as [g r] eqn:S. apply num_sign_sound in S as [-> G].
  destruct (span is_dec r) as [a r1] eqn:SP. apply span_inv in SP as (-> & A & _). destruct (whole a) eqn:W; [|discriminate]. cbn [negb].
  destruct (num_frac r1) as [[f r2]|] eqn:F; [|discriminate]. apply num_frac_sound in F as [-> F].
  destruct (num_exp r2) as [[e r3]|] eqn:X; [|discriminate]. apply num_exp_sound in X as [-> X]. intros [= <- <-].
  split; [now rewrite !app_str_assoc|]. exists g, a, f, e. repeat split; auto. now apply whole_int_text.
Qed.

Lemma no_number_starts rest : no_number rest -> starts is_dec rest = false.
Proof. destruct rest; cbn; [auto|]. intros [A _]. exact A. Qed.
Lemma digits_head s rest : digits s -> exists d ds, s ++ rest = String d (ds ++ rest) /\ s = String d ds /\ is_dec d = true.
Proof.
  intros [N A]. destruct s as [|d ds]; [congruence|]. exists d, ds. split; [reflexivity|]. split; [reflexivity|]. now apply Forall_cons_iff in A as [A _].
Qed.
Lemma dec_no_sign d : is_dec d = true -> one_of "+-" d = false.
Proof.
  unfold is_dec. intros D. apply between_iff in D. unfold one_of. cbn. destruct (Ascii.eqb_spec d "+") as [->|]; [cbn in D; lia|].
  destruct (Ascii.eqb_spec d "-") as [->|]; [cbn in D; lia|reflexivity].
Qed.
Lemma num_exp_complete e rest : exp_text e -> no_number rest -> num_exp (e ++ rest) = Some (e, rest).
Proof.
  intros X N. destruct X as [|e sg s C I D].
  - cbn [append]. destruct rest as [|c r]; [reflexivity|]. cbn [num_exp]. replace (one_of "eE" c) with false; [reflexivity|].
    destruct N as [_ N]. symmetry. revert N. unfold one_of. cbn. destruct (Ascii.eqb c "."), (Ascii.eqb c "e"), (Ascii.eqb c "E"); auto; discriminate.
  - cbn [append num_exp]. replace (one_of "eE" e) with true by (destruct C as [-> | ->]; reflexivity). rewrite app_str_assoc.
    destruct (digits_head s rest D) as (d & ds & E1 & E2 & D1).
    assert (SP : span is_dec (s ++ rest) = (s, rest)) by (apply span_app; [now apply all_digits_iff, D|now apply no_number_starts]).
    assert (R : match s with "" => None | String _ _ => Some (String e (sg ++ s), rest) end = Some (String e (sg ++ s), rest)) by now rewrite E2.
    destruct I as [<-|[<-|[<-|[]]]]; cbn [append].
    + rewrite E1. rewrite (dec_no_sign d D1). rewrite <- E1, SP. rewrite E2. reflexivity.
    + replace (one_of "+-" "+") with true by reflexivity. rewrite SP, E2. reflexivity.
    + replace (one_of "+-" "-") with true by reflexivity. rewrite SP, E2. reflexivity.
Qed.
Lemma exp_start e rest : exp_text e -> no_number rest -> starts is_dec (e ++ rest) = false /\ starts (fun c => Ascii.eqb c ".") (e ++ rest) = false.
Proof.
  intros X N. destruct X as [|e sg s C I D].
  - cbn [append]. destruct rest as [|c r]; cbn; auto. destruct N as [A N]. split; [exact A|]. revert N. unfold one_of. cbn. destruct (Ascii.eqb c "."); auto.
  - cbn. destruct C as [-> | ->]; auto.
Qed.
Lemma num_frac_complete f e rest : fraction_text f -> exp_text e -> no_number rest -> num_frac (f ++ e ++ rest) = Some (f, e ++ rest).
Proof.
  intros F X N. destruct (exp_start e rest X N) as [S1 S2]. destruct F as [|s D].
  - cbn [append]. destruct (e ++ rest) as [|c r]; [reflexivity|]. cbn [num_frac]. cbn in S2. now rewrite S2.
  - cbn [append num_frac]. replace (Ascii.eqb "." ".") with true by reflexivity.
    rewrite (span_app is_dec s (e ++ rest)); [|now apply all_digits_iff, D|exact S1]. destruct D as [NE _]. now destruct s.
Qed.

(** ... and every number of the grammar is read. *)
Theorem C50_JSON_numbers_complete : forall t rest, number_text t -> no_number rest -> json_number (t ++ rest) = Some (t, rest).
Proof.
  intros t rest (g & a & f & e & G & A & F & X & ->) N. rewrite json_number_parts. destruct (int_text_whole a A) as (NA & DA & W).
  assert (S : num_sign ((g ++ a ++ f ++ e) ++ rest) = (g, a ++ f ++ e ++ rest)).
  { rewrite !app_str_assoc. destruct G as [<-|[<-|[]]]; [|reflexivity]. cbn [append]. destruct a as [|c a]; [congruence|]. cbn [append num_sign].
    cbn [all_c] in DA. apply andb_true_iff in DA as [DA _]. unfold is_dec in DA. apply between_iff in DA.
    destruct (Ascii.eqb_spec c "-") as [->|]; [cbn in DA; lia|reflexivity]. }
  rewrite S. rewrite (span_app is_dec a (f ++ e ++ rest)); [|exact DA|].
  - rewrite W. cbn [negb]. rewrite num_frac_complete, num_exp_complete by assumption. reflexivity.
  - destruct F as [|s D]; [apply (exp_start e rest X N)|reflexivity].
Qed.

(** ---------- strings ---------- *)

Lemma getu4_hex v t : 0 <= v < 65536 -> getu4 (String bslash (String "u" (hex 4 v)) ++ t) = Some (v, t).
Proof.
  intros V. cbn [append]. unfold getu4. replace (Ascii.eqb bslash bslash && Ascii.eqb "u" "u")%bool with true by reflexivity.
  rewrite unhex_hex by lia. change (16 ^ Z.of_nat 4) with 65536. rewrite Z.mod_small by lia. now rewrite Z.mul_0_l, Z.add_0_l.
Qed.
Lemma json_string_pair k r t : 65536 <= r <= 1114111 ->
  json_string (S k) (String bslash (String "u" (hex 4 (55296 + (r - 65536) / 1024))) ++ String bslash (String "u" (hex 4 (56320 + (r - 65536) mod 1024))) ++ t)
  = adds (encode r) (json_string k t).
Proof.
  intros R. set (v := 55296 + (r - 65536) / 1024). set (w := 56320 + (r - 65536) mod 1024).
  assert (Hv : 55296 <= v < 56320).
  { unfold v. pose proof (Z.div_pos (r - 65536) 1024 ltac:(lia) ltac:(lia)). pose proof (Z.div_lt_upper_bound (r - 65536) 1024 1024 ltac:(lia) ltac:(lia)). lia. }
  assert (Hw : 56320 <= w < 57344) by (unfold w; pose proof (Z.mod_pos_bound (r - 65536) 1024 ltac:(lia)); lia).
  pose proof (getu4_hex v (String bslash (String "u" (hex 4 w)) ++ t) ltac:(lia)) as G1.
  pose proof (getu4_hex w t ltac:(lia)) as G2.
  change (String bslash (String "u" (hex 4 v)) ++ String bslash (String "u" (hex 4 w)) ++ t)
    with (String bslash ((String "u" (hex 4 v)) ++ String bslash (String "u" (hex 4 w)) ++ t)) in *.
  cbn [json_string]. replace (Ascii.eqb bslash dquote) with false by reflexivity. replace (code bslash <? 32)%Z with false by reflexivity.
  replace (Ascii.eqb bslash bslash) with true by reflexivity. cbn match. rewrite G1, G2.
  replace (high_surrogate v) with true by (symmetry; unfold high_surrogate; apply andb_true_iff; split; [apply Z.leb_le|apply Z.ltb_lt]; lia).
  replace (low_surrogate w) with true by (symmetry; unfold low_surrogate; apply andb_true_iff; split; [apply Z.leb_le|apply Z.ltb_lt]; lia).
  replace ((v - 55296) * 1024 + (w - 56320) + 65536) with r; [destruct (json_string k t) as [[? ?]|]; reflexivity|].
  unfold v, w. pose proof (Z.div_mod (r - 65536) 1024 ltac:(lia)). lia.
Qed.

(** Every string of the grammar is read. *)
Theorem C50_JSON_strings : forall t s rest, literal t s -> json_string (S (String.length (t ++ rest))) (t ++ rest) = Some (s, rest).
Proof.
  intros t s rest L. assert (G : forall k, (String.length t <= k)%nat -> json_string k (t ++ rest) = Some (s, rest)).
  2:{ apply G. rewrite length_app_str. lia. }
  induction L as [|r t s V L1 N1 N2 L IH|c z t s I L IH|r t s V R L IH|r t s R L IH]; intros k K.
  - destruct k as [|k]; [cbn in K; lia|]. cbn [append]. apply json_string_end.
  - rewrite length_app_str in K. assert (1 <= String.length (encode r))%nat.
    { destruct (Z.ltb_spec r 128) as [H|H]; [rewrite encode_ascii by lia; cbn; lia|destruct (encode_high_head r H V) as (c & u & -> & _); cbn; lia]. }
    destruct k as [|k]; [lia|]. rewrite app_str_assoc, json_string_rune by auto. rewrite IH by lia. reflexivity.
  - cbn in K. destruct k as [|k]; [lia|]. cbn [append].
    rewrite (json_string_letter k c z); [rewrite IH by lia; reflexivity|..].
    + cbn in I. repeat (destruct I as [[= <- <-]|I]; [reflexivity|]). destruct I.
    + cbn in I. repeat (destruct I as [[= <- <-]|I]; [discriminate|]). destruct I.
  - rewrite length_app_str in K. cbn in K. destruct k as [|k]; [lia|]. rewrite app_str_assoc, json_string_u by auto. rewrite IH by lia. reflexivity.
  - rewrite !length_app_str in K. cbn in K. destruct k as [|k]; [lia|]. rewrite !app_str_assoc, json_string_pair by auto. rewrite IH by lia. reflexivity.
Qed.

Example C50_grammar_nonvacuous :
  (number_text "-12.50e-07" /\ no_number "," /\ json_number "-12.50e-07," = Some ("-12.50e-07", ","))
  /\ exists t, literal t (encode 128512 ++ encode 233 ++ "a") /\ t = String bslash "ud83d" ++ String bslash "ude00" ++ encode 233 ++ String "a" (String dquote "").
Proof.
  split.
  - split; [|split; [split; reflexivity|vm_compute; reflexivity]]. exists "-", "12", ".50", "e-07". split; [right; now left|].
    split; [constructor; [reflexivity|discriminate|repeat constructor]|]. split; [constructor; split; [discriminate|repeat constructor]|]. split; [|reflexivity].
    apply (exp_some "e" "-" "07"); [now left|right; right; now left|]. split; [discriminate|repeat constructor].
  - eexists. split; [|reflexivity]. apply (lit_pair 128512 (encode 233 ++ String "a" (String dquote "")) (encode 233 ++ "a")); [lia|].
    apply (lit_char 233 _ "a"); [reflexivity|lia|lia|lia|]. apply (lit_char 97 (String dquote "") ""); [reflexivity|lia|lia|lia|]. constructor.
Qed.

(** Axioms used by any theorem of this file. *)
Definition all_Props_JsonGrammar :=
  (@C50_JSON_numbers_sound,
   @C50_JSON_numbers_complete,
   @C50_JSON_strings).
Print Assumptions all_Props_JsonGrammar.
