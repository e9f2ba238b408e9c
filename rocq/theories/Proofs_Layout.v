(** Proofs_Layout.v -- where the items of the padded text are. *)
From Coq Require Import ZArith NArith List String Ascii Bool SpecFloat Lia.
From Verif Require Import Base Model_Names Model_Table Model_Heap Model_TableSet Spec Spec_Text Model_Lex Model_Float Model_Time Model_Parser Model_Print Spec_Layout
  Proofs_Lib Proofs_Table Proofs_Lex Proofs_Num Proofs_Float Proofs_Parser Proofs_FloatText Proofs_TimeText Proofs_Lines Proofs_Block Proofs_CellText Proofs_Unpadded Proofs_Padded Proofs_Width Proofs_StringNested.
Import ListNotations.
Local Open Scope string_scope.
Local Open Scope list_scope.

(** ---------- counting runes ---------- *)

Lemma decode_width s r w : decode s = Some (r, w) -> 1 <= w <= String.length s.
Proof.
  destruct s as [|c0 s]; [discriminate|]. cbn [decode String.length]. intros E. apply (f_equal (fun o => match o with Some p => snd p | None => 0 end)) in E. cbn [snd] in E.
  destruct (code c0 <? 128)%Z; [cbn in E; lia|].
  destruct (between 194 223 c0). { destruct s as [|c1 s]; [cbn in E; lia|]. destruct (cont c1); cbn in E |- *; lia. }
  destruct (between 224 239 c0). { destruct s as [|c1 [|c2 s]]; [cbn in E; lia..|]. destruct (_ && _); cbn in E |- *; lia. }
  destruct (between 240 244 c0); [|cbn in E; lia]. destruct s as [|c1 [|c2 [|c3 s]]]; [cbn in E; lia..|]. destruct (_ && _); cbn in E |- *; lia.
Qed.
Lemma drop_len w s : String.length (drop w s) = String.length s - w.
Proof. revert s. induction w as [|w IH]; intros s; [cbn [drop]; lia|]. destruct s as [|c s]; cbn [drop String.length]; [reflexivity|]. rewrite IH. lia. Qed.
Lemma count_fuel fuel : forall s, String.length s <= fuel -> rune_count_from fuel s = rune_count s.
Proof.
  unfold rune_count. induction fuel as [fuel IH] using lt_wf_ind. intros s L. destruct s as [|c s].
  - destruct fuel; reflexivity.
  - destruct fuel as [|fuel]; [cbn in L; lia|]. cbn [String.length rune_count_from]. destruct (decode (String c s)) as [[r w]|] eqn:D; [|reflexivity].
    pose proof (decode_width _ _ _ D) as W. f_equal. pose proof (drop_len w (String c s)) as DL. cbn [String.length] in *.
    rewrite (IH fuel ltac:(lia) (drop w (String c s))) by lia. destruct (Nat.eq_dec fuel (String.length s)) as [->|NE].
    + symmetry. apply IH; lia.
    + symmetry. apply IH; lia.
Qed.
Lemma count_step s r w : decode s = Some (r, w) -> rune_count s = S (rune_count (drop w s)).
Proof.
  intros D. pose proof (decode_width _ _ _ D) as W. unfold rune_count at 1. destruct (String.length s) as [|n] eqn:L; [lia|]. cbn [rune_count_from]. rewrite D. f_equal.
  apply count_fuel. rewrite drop_len. lia.
Qed.
Lemma decode_some s : s <> "" -> exists r w, decode s = Some (r, w).
Proof. destruct s as [|c s]; [congruence|]. intros _. cbn [decode]. match goal with |- context [Some ?x] => destruct x as [r w] end. eauto. Qed.
Lemma count_le s : rune_count s <= String.length s.
Proof.
  remember (String.length s) as n. revert s Heqn. induction n as [n IH] using lt_wf_ind. intros s ->. destruct (string_dec s "") as [->|N]; [cbn; lia|].
  destruct (decode_some s N) as (r & w & D). rewrite (count_step s r w D). pose proof (decode_width _ _ _ D) as W. pose proof (drop_len w s) as DL.
  specialize (IH (String.length (drop w s)) ltac:(lia) (drop w s) eq_refl). lia.
Qed.
Lemma decode_space s r w q : decode s = Some (r, w) -> decode (s ++ String " " q)%string = Some (r, w).
Proof.
  assert (B : forall a b, (128 <= a)%Z -> between a b " " = false).
  { intros a b A. unfold between. change (code " ") with 32%Z. destruct (Z.leb_spec a 32); [lia|reflexivity]. }
  assert (CB : cont " " = false) by reflexivity.
  destruct s as [|c0 s]; [discriminate|]. cbn [append decode]. intros E. rewrite <- E. clear E. f_equal.
  destruct (code c0 <? 128)%Z; [reflexivity|].
  destruct (between 194 223 c0). { destruct s as [|c1 s]; reflexivity. }
  destruct (between 224 239 c0).
  { destruct s as [|c1 [|c2 s]]; cbn [append]; [|now rewrite CB, andb_false_r|reflexivity]. destruct q; [reflexivity|].
    rewrite B by (destruct (code c0 =? 224)%Z; lia). reflexivity. }
  destruct (between 240 244 c0); [|reflexivity]. destruct s as [|c1 [|c2 [|c3 s]]]; cbn [append].
  - destruct q as [|q1 [|q2 q]]; [reflexivity..|]. rewrite B by (destruct (code c0 =? 240)%Z; lia). reflexivity.
  - destruct q as [|q1 q]; [reflexivity|]. rewrite CB, andb_false_r. reflexivity.
  - now rewrite CB, andb_false_r.
  - reflexivity.
Qed.
Lemma decode_app s r w k : decode s = Some (r, w) -> decode (s ++ spaces k)%string = Some (r, w).
Proof. destruct k as [|k]; [cbn [spaces]; now rewrite app_str_nil_r|]. cbn [spaces]. apply decode_space. Qed.
Lemma count_spaces_app k s : rune_count (spaces k ++ s)%string = k + rune_count s.
Proof. induction k as [|k IH]; [reflexivity|]. cbn [spaces append]. rewrite (count_step _ 32%Z 1) by reflexivity. cbn [drop]. rewrite IH. reflexivity. Qed.
Lemma drop_app_le w s t : w <= String.length s -> drop w (s ++ t)%string = (drop w s ++ t)%string.
Proof. revert s. induction w as [|w IH]; intros [|c s] L; cbn [drop append String.length] in *; try reflexivity; try lia. apply IH. lia. Qed.
Lemma count_app_spaces s k : rune_count (s ++ spaces k)%string = rune_count s + k.
Proof.
  remember (String.length s) as n. revert s Heqn. induction n as [n IH] using lt_wf_ind. intros s ->. destruct (string_dec s "") as [->|N].
  - cbn [append]. pose proof (count_spaces_app k "") as E. rewrite app_str_nil_r in E. change (rune_count "") with 0 in *. lia.
  - destruct (decode_some s N) as (r & w & D). rewrite (count_step s r w D), (count_step _ r w (decode_app s r w k D)). pose proof (decode_width _ _ _ D) as W.
    rewrite drop_app_le by lia. rewrite (IH (String.length (drop w s))); [reflexivity| |reflexivity]. rewrite drop_len. lia.
Qed.
Lemma count_space s q : rune_count (s ++ String " " q)%string = rune_count s + S (rune_count q).
Proof.
  remember (String.length s) as n. revert s Heqn. induction n as [n IH] using lt_wf_ind. intros s ->. destruct (string_dec s "") as [->|N].
  - cbn [append]. rewrite (count_step _ 32%Z 1) by reflexivity. reflexivity.
  - destruct (decode_some s N) as (r & w & D). rewrite (count_step s r w D), (count_step _ r w (decode_space s r w q D)). pose proof (decode_width _ _ _ D) as W.
    rewrite drop_app_le by lia. rewrite (IH (String.length (drop w s))); [reflexivity| |reflexivity]. rewrite drop_len. lia.
Qed.
Definition low (c : ascii) : bool := (code c <? 128)%Z.
Lemma count_low s : all_c low s = true -> rune_count s = String.length s.
Proof.
  induction s as [|c s IH]; [reflexivity|]. cbn [all_c]. rewrite andb_true_iff. intros [C A].
  rewrite (count_step _ (code c) 1); [cbn [drop String.length]; now rewrite IH|]. cbn [decode]. unfold low in C. now rewrite C.
Qed.
Lemma pad_left_count w s : (Z.of_nat (rune_count s) <= w)%Z -> rune_count (pad_left w s) = Z.to_nat w.
Proof. intros L. unfold pad_left. rewrite count_spaces_app. lia. Qed.
Lemma pad_right_count w s : (Z.of_nat (rune_count s) <= w)%Z -> rune_count (pad_right w s) = Z.to_nat w.
Proof. intros L. unfold pad_right. rewrite count_app_spaces. lia. Qed.
Lemma blanks_spaces k : blanks k = spaces k. Proof. induction k as [|k IH]; cbn [copies spaces]; congruence. Qed.
Lemma zeros_copies k : zeros k = copies "0" k. Proof. induction k as [|k IH]; cbn [copies zeros]; congruence. Qed.

(** ---------- lines ---------- *)

Definition out_item (last is_cell : bool) (it : string * widths * string) : string :=
  let '(ct, w, s) := it in
  match matrix_item ct (w_width w) last is_cell (w_precis w) s with
  | Some x => if last && IsNumericColType ct then trim_right_spaces x else x
  | None => ""
  end.
Fixpoint line_items (is_cell : bool) (items : list (string * widths * string)) : list string :=
  match items with [] => [] | it :: r => out_item (match r with [] => true | _ => false end) is_cell it :: line_items is_cell r end.
Definition good (is_cell : bool) (it : string * widths * string) : Prop :=
  IsNumericColType (fst (fst it)) = true -> exists u, item is_cell (fst (fst it)) (w_precis (snd (fst it))) (snd it) u.

Lemma line_items_len ic items : List.length (line_items ic items) = List.length items.
Proof. induction items as [|it r IH]; cbn [line_items List.length]; congruence. Qed.
Lemma line_items_nth ic items : forall i it, nth_error items i = Some it -> nth i (line_items ic items) "" = out_item (Nat.eqb (S i) (List.length items)) ic it.
Proof.
  induction items as [|x r IH]; intros [|i] it E; try discriminate; cbn [nth_error] in E.
  - injection E as ->. cbn [line_items nth List.length]. destruct r; reflexivity.
  - cbn [line_items nth List.length]. rewrite (IH i it E). reflexivity.
Qed.
Lemma matrix_line_items ic items : Forall (good ic) items -> items <> [] -> forall sep,
  matrix_line ic sep items = Some (sep ++ String.concat " " (line_items ic items))%string.
Proof.
  induction 1 as [|[[ct w] s] r G F IH]; intros N sep; [congruence|]. cbn [matrix_line line_items]. unfold good in G. cbn [fst snd] in G.
  unfold out_item at 1. destruct (IsNumericColType ct) eqn:T.
  - destruct (G eq_refl) as (u & I & H). destruct r as [|it r].
    + destruct (H true (w_width w)) as (k & j & E). rewrite E. cbn [andb matrix_line line_items String.concat]. rewrite app_str_nil_r.
      rewrite trim_right_item by exact I. pose proof (trim_right_item "" k u j I) as X. cbn [append] in X. now rewrite X.
    + destruct (H false (w_width w)) as (k & j & E). rewrite E. cbn [andb]. rewrite (IH ltac:(discriminate) " "). cbn [line_items String.concat]. now rewrite !app_str_assoc.
  - rewrite !andb_false_r. unfold matrix_item. rewrite T. destruct r as [|it r].
    + cbn [matrix_line line_items String.concat]. now rewrite app_str_nil_r.
    + rewrite (IH ltac:(discriminate) " "). cbn [line_items String.concat]. now rewrite !app_str_assoc.
Qed.

(** ---------- widths ---------- *)

Definition wstep (ct : string) (w : widths) (s : string) : widths :=
  widen s (if (ct =? "rune") || (ct =? "float32") || (ct =? "float64") then setWidths s w else w).
Lemma col_widths_fold cn ct cells : col_widths cn ct cells = fold_left (wstep ct) cells (widen ct (widen cn (mkWd 0 0 0 0))).
Proof. reflexivity. Qed.
Lemma wstep_width ct w s : (w_width w <= w_width (wstep ct w s))%Z /\ (Z.of_nat (String.length s) <= w_width (wstep ct w s))%Z.
Proof. unfold wstep, widen. destruct (_ || _); unfold setWidths; cbn [w_width]; lia. Qed.
Lemma width_fold ct cells : forall w, (w_width w <= w_width (fold_left (wstep ct) cells w))%Z /\
  Forall (fun s => Z.of_nat (String.length s) <= w_width (fold_left (wstep ct) cells w))%Z cells.
Proof.
  induction cells as [|s cells IH]; intros w; cbn [fold_left]; [split; [lia|constructor]|]. destruct (IH (wstep ct w s)) as [A B]. destruct (wstep_width ct w s) as [C D].
  split; [lia|]. constructor; [lia|exact B].
Qed.
Lemma width_covers cn ct cells s : In s (cn :: ct :: cells) -> (Z.of_nat (String.length s) <= w_width (col_widths cn ct cells))%Z.
Proof.
  rewrite col_widths_fold. destruct (width_fold ct cells (widen ct (widen cn (mkWd 0 0 0 0)))) as [A B]. cbn [w_width widen] in A. rewrite Forall_forall in B.
  intros [<-|[<-|I]]; [unfold widen in *; cbn [w_width] in *; lia..|]. now apply B.
Qed.
Definition winv (w : widths) : Prop :=
  (w_pre w + w_points w + w_precis w <= w_width w /\ 0 <= w_points w <= 1 /\ (0 < w_precis w -> w_points w = 1) /\ 0 <= w_precis w /\ 0 <= w_pre w)%Z.
Lemma wstep_inv ct w s : winv w -> winv (wstep ct w s).
Proof.
  intros (A & B & C & D & E). unfold wstep, winv, widen. destruct (_ || _); [|cbn [w_pre w_points w_precis w_width]; lia].
  unfold setWidths, preNumberOf, pointsOf, precisionOf. destruct (at_point s) as [[a b]|]; cbn [w_pre w_points w_precis w_width]; lia.
Qed.
Lemma inv_fold ct cells : forall w, winv w -> winv (fold_left (wstep ct) cells w).
Proof. induction cells as [|s cells IH]; intros w I; cbn [fold_left]; [exact I|]. apply IH, wstep_inv, I. Qed.
Lemma col_inv cn ct cells : winv (col_widths cn ct cells).
Proof. rewrite col_widths_fold. apply inv_fold. unfold winv, widen. cbn [w_pre w_points w_precis w_width]. lia. Qed.
Lemma pre_fold ct cells : forall w, (w_pre w <= w_pre (fold_left (wstep ct) cells w))%Z.
Proof.
  induction cells as [|s cells IH]; intros w; cbn [fold_left]; [lia|]. eapply Z.le_trans; [|apply IH]. unfold wstep, widen.
  destruct (_ || _); unfold setWidths; cbn [w_pre]; lia.
Qed.
Lemma pre_float cn ct cells s : is_float_type ct = true -> In s cells -> (preNumberOf s <= w_pre (col_widths cn ct cells))%Z.
Proof.
  intros F. rewrite col_widths_fold. generalize (widen ct (widen cn (mkWd 0 0 0 0))). unfold is_float_type in F.
  assert (E : (ct =? "rune") || (ct =? "float32") || (ct =? "float64") = true) by (rewrite <- orb_assoc, F; apply orb_true_r).
  induction cells as [|s' cells IH]; intros w []; cbn [fold_left]; auto. subst s'. eapply Z.le_trans; [|apply pre_fold]. unfold wstep. rewrite E. unfold widen, setWidths. cbn [w_pre]. lia.
Qed.

Lemma width_tight cn ct cells : ~ In ct ["rune"; "float32"; "float64"] -> let w := w_width (col_widths cn ct cells) in
  w = Z.of_nat (String.length cn) \/ w = Z.of_nat (String.length ct) \/ exists s, In s cells /\ w = Z.of_nat (String.length s).
Proof.
  intros N. cbv zeta. rewrite col_widths_fold. assert (E : (ct =? "rune") || (ct =? "float32") || (ct =? "float64") = false).
  { destruct (ct =? "rune") eqn:A; [apply String.eqb_eq in A; subst; exfalso; apply N; cbn; tauto|]. destruct (ct =? "float32") eqn:B; [apply String.eqb_eq in B; subst; exfalso; apply N; cbn; tauto|].
    destruct (ct =? "float64") eqn:C; [apply String.eqb_eq in C; subst; exfalso; apply N; cbn; tauto|]. reflexivity. }
  assert (X : forall cells w, w_width (fold_left (wstep ct) cells w) = w_width w \/ exists s, In s cells /\ w_width (fold_left (wstep ct) cells w) = Z.of_nat (String.length s)).
  { clear cells. induction cells as [|s cells IH]; intros w; cbn [fold_left]; [now left|]. destruct (IH (wstep ct w s)) as [H|(s' & I & H)]; [|right; exists s'; split; [now right|exact H]].
    rewrite H. unfold wstep. rewrite E. unfold widen. cbn [w_width]. destruct (Z.max_spec (w_width w) (Z.of_nat (String.length s))) as [[_ M]|[_ M]]; rewrite M; [right; exists s; split; [now left|reflexivity]|now left]. }
  destruct (X cells (widen ct (widen cn (mkWd 0 0 0 0)))) as [H|H]; [|tauto]. rewrite H. unfold widen. cbn [w_width]. lia.
Qed.

(** ---------- floats ---------- *)

Lemma split_unique c x : forall y a b, has c x = false -> has c y = false -> (x ++ String c y = a ++ String c b)%string -> a = x.
Proof.
  induction x as [|d x IH]; intros y a b X Y E.
  - destruct a as [|e a]; [reflexivity|]. cbn [append] in E. injection E as -> E. exfalso. rewrite E in Y. rewrite has_app in Y. apply orb_false_iff in Y as [_ Y].
    unfold has in Y. cbn [existsb list_ascii_of_string] in Y. rewrite Ascii.eqb_refl in Y. discriminate.
  - unfold has in X. cbn [existsb list_ascii_of_string] in X. apply orb_false_iff in X as [X1 X2]. destruct a as [|e a]; cbn [append] in E.
    + injection E as -> _. rewrite Ascii.eqb_refl in X1. discriminate.
    + injection E as -> E. f_equal. exact (IH y a b X2 Y E).
Qed.
Lemma has_here c a b : has c (a ++ String c b) = true.
Proof. rewrite has_app. unfold has at 2. cbn [existsb list_ascii_of_string]. rewrite Ascii.eqb_refl. apply orb_true_r. Qed.
Lemma has_spaces_point k : has "." (spaces k) = false.
Proof. induction k; [reflexivity|]. exact IHk. Qed.

(** The digits of a float with [P] decimals *)
Definition digits_of (P : Z) (f : spec_float) (u : string) (z : nat) : Prop :=
  format_fixed P f = (u ++ zeros z)%string /\ padTrailingZeros (format_fixed P f) = (u ++ spaces z)%string /\ inked u /\ all_c low u = true /\
  (has "." u = false \/ (0 < P)%Z /\ exists x y, u = (x ++ String "." y)%string /\ has "." x = false /\ has "." y = false /\ (Z.of_nat (String.length x) + 1 + P = Z.of_nat (String.length u + z))%Z).

Lemma dec_low c : is_dec c = true -> low c = true.
Proof. intros H. pose proof (dec_code c H). unfold low. apply Z.ltb_lt. lia. Qed.
Lemma dec_ink c : is_dec c = true -> Ascii.eqb " " c = false.
Proof. intros H. pose proof (dec_code c H) as D. destruct (Ascii.eqb_spec " " c); [|reflexivity]. subst c. change (code " ") with 32%Z in D. lia. Qed.
Lemma number_low neg a p b : is_number a p b -> all_c low (number neg a p b) = true.
Proof.
  intros (A & _ & B & _). unfold number, sign_text, frac_text.
  assert (A' : all_c low a = true) by exact (all_c_impl _ _ _ dec_low A). assert (B' : all_c low b = true) by exact (all_c_impl _ _ _ dec_low B).
  destruct neg, p; cbn [all_c append]; rewrite ?app_str_nil_r, ?all_c_app; cbn [all_c]; rewrite ?A', ?B'; reflexivity.
Qed.
Lemma sign_app neg a b : sign_text neg (a ++ b)%string = (sign_text neg a ++ b)%string.
Proof. destruct neg; reflexivity. Qed.
Lemma sign_point neg a : all_c is_dec a = true -> has "." (sign_text neg a) = false.
Proof. intros A. pose proof (dec_has "." a eq_refl A) as H. destruct neg; unfold sign_text; [|exact H]. exact H. Qed.
Lemma inked_app a u : inked u -> inked (a ++ u)%string.
Proof. intros (x & c & -> & C). exists (a ++ x)%string, c. split; [now rewrite app_str_assoc|exact C]. Qed.
Lemma number_inked neg a p b : is_number a p b -> (p = true -> b <> "") -> inked (number neg a p b).
Proof.
  intros (A & NA & B & PB) NB. unfold number. rewrite sign_app. destruct p; unfold frac_text.
  - change (String "." b) with (String "." "" ++ b)%string. rewrite <- app_str_assoc. apply inked_app. exact (inked_bytes is_dec b dec_ink B (NB eq_refl)).
  - rewrite app_str_nil_r. destruct neg; unfold sign_text; [change (String "-" a) with (String "-" "" ++ a)%string; apply inked_app|]; exact (inked_bytes is_dec a dec_ink A NA).
Qed.
Lemma digits_number P f neg a b : format_fixed P f = number neg a (0 <? P)%Z b -> is_number a (0 <? P)%Z b -> Z.of_nat (String.length b) = P -> exists u z, digits_of P f u z.
Proof.
  intros E I LB. destruct (Z.ltb_spec 0 P) as [PP|PP].
  - destruct I as (A & NA & B & PB). assert (NB : b <> "") by (intros ->; cbn in LB; lia).
    assert (EN : forall b, number neg a true b = (sign_text neg a ++ String "." b)%string) by (intros b'; unfold number, frac_text; apply sign_app).
    destruct (pad_zeros_number (sign_text neg a) b B NB) as (b1 & k & EB & NB1 & EP).
    assert (B1 : all_c is_dec b1 = true) by (rewrite EB, all_c_app in B; apply andb_true_iff in B; tauto).
    assert (I1 : is_number a true b1) by (repeat split; auto; discriminate).
    exists (number neg a true b1), k. split; [|split; [|split; [|split]]].
    + rewrite E, !EN, EB, app_str_assoc. reflexivity.
    + rewrite E. unfold padTrailingZeros. rewrite at_point_number by (repeat split; auto; discriminate). rewrite !EN, EP, app_str_assoc. reflexivity.
    + now apply number_inked.
    + now apply number_low.
    + right. split; [exact PP|]. exists (sign_text neg a), b1. split; [apply EN|]. split; [now apply sign_point|]. split; [now apply dec_has|].
      rewrite EN, length_app_str. cbn [String.length]. rewrite EB, length_app_str, zeros_len in LB. lia.
  - exists (number neg a false b), 0. unfold digits_of. cbn [zeros spaces]. rewrite !app_str_nil_r. split; [exact E|]. split; [|split; [|split]].
    + rewrite E. unfold padTrailingZeros. rewrite at_point_number by exact I. reflexivity.
    + apply number_inked; [exact I|discriminate].
    + now apply number_low.
    + left. destruct I as (A & NA & B & PB). unfold number, frac_text. rewrite app_str_nil_r. now apply sign_point.
Qed.
Lemma fixed_digits F f P : fmt_ok F -> valid_binary (f_prec F) (f_emax F) f = true -> (0 <= P)%Z -> exists u z, digits_of P f u z.
Proof.
  intros FO V PP. destruct f as [s|s| |s m e].
  - destruct (print_scaled_number 0 P) as (E & I & _ & L); [lia..|]. apply (digits_number P _ s (int_part 0 P) (frac_part 0 P)); auto. unfold format_fixed, number. now rewrite E.
  - exists (format_fixed P (S754_infinity s)), 0. unfold digits_of. cbn [zeros spaces]. rewrite !app_str_nil_r. destruct s; cbn [format_fixed]; (split; [reflexivity|]; split; [reflexivity|]; split; [|split; [reflexivity|now left]]).
    + exists "-In", "f"%char. now split. + exists "+In", "f"%char. now split.
  - exists "NaN", 0. unfold digits_of. cbn [zeros spaces]. rewrite !app_str_nil_r. cbn [format_fixed]. split; [reflexivity|]. split; [reflexivity|]. split; [|split; [reflexivity|now left]]. exists "Na", "N"%char. now split.
  - assert (N : (0 <= round_half_even (Zpos m * e_up e * 10 ^ P) (e_down e))%Z).
    { apply round_bounds. - pose proof (e_up_pos e). pose proof (Z.pow_nonneg 10 P). nia. - apply e_down_pos. }
    destruct (print_scaled_number _ P N PP) as (E & I & _ & L). eapply (digits_number P _ s); [|exact I|exact L]. unfold format_fixed, number. rewrite ratio_eq, <- E. reflexivity.
Qed.

(** ---------- items ---------- *)

Definition lane_of (w : widths) : lane := mkLane (Z.to_nat (w_width w)) (Z.to_nat (w_width w - 1 - w_precis w)) (w_precis w).

Lemma right_numeric ct : In ct all_types -> right_aligned ct <-> IsNumericColType ct = true.
Proof.
  intros TY. unfold right_aligned. split.
  - cbn [In]. intros H. repeat (destruct H as [<-|H]; [reflexivity|]). contradiction.
  - intros H. types TY; try discriminate; cbn [In]; tauto.
Qed.
Lemma inked_no_space u a : inked u -> u <> (a ++ " ")%string.
Proof.
  intros (x & c & -> & C) E. apply (f_equal srev) in E. rewrite !srev_app_str in E. change (srev (String c "")) with (String c "") in E. change (srev " ") with " " in E.
  cbn [append] in E. injection E as -> _. discriminate.
Qed.
Lemma until_len a : forall b, exists a' b', until "." (a ++ String "." b) = Some (a', b') /\ String.length b <= String.length b'.
Proof.
  induction a as [|c a IH]; intros b; cbn [append until]; [rewrite Ascii.eqb_refl; eauto|].
  destruct (Ascii.eqb c "."); [exists "", (a ++ String "." b)%string; split; [reflexivity|]; rewrite length_app_str; cbn [String.length]; lia|].
  destruct (IH b) as (a' & b' & -> & L). eauto.
Qed.
Lemma precision_split s a b : s = (a ++ String "." b)%string -> (Z.of_nat (String.length b) <= precisionOf s)%Z.
Proof. intros ->. unfold precisionOf, at_point. destruct (until_len a b) as (a' & b' & -> & L). lia. Qed.

Lemma trim_pad w s : inked s -> trim_right_spaces (pad_left w s) = pad_left w s.
Proof.
  intros I. unfold pad_left. pose proof (trim_right_item "" (Z.to_nat (w - Z.of_nat (rune_count s))) s 0 I) as X. cbn [append spaces] in X. rewrite app_str_nil_r in X. exact X.
Qed.
Lemma text_left last ic ct W s : In ct all_types -> IsNumericColType ct = false -> (Z.of_nat (String.length s) <= w_width W)%Z -> placed_text last ct (lane_of W) s (out_item last ic (ct, W, s)).
Proof.
  intros TY N L. unfold out_item, matrix_item. rewrite N, andb_false_r. split; intros H; [|apply (right_numeric ct TY) in H; congruence]. destruct last.
  - exists 0. cbn [copies]. now rewrite app_str_nil_r.
  - unfold pad_right. rewrite <- blanks_spaces. eexists. split; [reflexivity|]. rewrite blanks_spaces. cbn [lane_of l_width].
    apply pad_right_count. pose proof (count_le s). lia.
Qed.
Lemma text_right (last ic : bool) ct W s : In ct all_types -> IsNumericColType ct = true -> (if ic then numeric_text ct (w_precis W) s else Some s) = Some s ->
  (is_float_type ct = true -> padTrailingZeros s = s) -> inked s -> (Z.of_nat (String.length s) <= w_width W)%Z ->
  placed_text last ct (lane_of W) s (out_item last ic (ct, W, s)) /\ good ic (ct, W, s).
Proof.
  intros TY N T P I L. assert (PE : (if is_float_type ct then padTrailingZeros s else s) = s) by (destruct (is_float_type ct); auto). split.
  - unfold out_item, matrix_item. rewrite N, T, andb_true_r, PE. split; intros H; [apply (right_numeric ct TY) in N; contradiction|].
    assert (E : (if last then trim_right_spaces (pad_left (w_width W) s) else pad_left (w_width W) s) = pad_left (w_width W) s) by (destruct last; [now apply trim_pad|reflexivity]).
    rewrite E. unfold pad_left at 1. rewrite <- blanks_spaces. eexists. split; [reflexivity|]. cbn [lane_of l_width].
    apply pad_left_count. pose proof (count_le s). lia.
  - intros _. exists s. cbn [fst snd]. apply (item_numeric ic ct _ s s s 0 N T); [|exact I]. rewrite PE. cbn [spaces]. now rewrite app_str_nil_r.
Qed.
Lemma head_right last ct W s : In ct all_types -> IsNumericColType ct = true -> inked s -> has "." s = false -> (Z.of_nat (String.length s) <= w_width W)%Z ->
  placed_text last ct (lane_of W) s (out_item last false (ct, W, s)) /\ good false (ct, W, s).
Proof. intros TY N I P L. apply text_right; auto. intros _. unfold padTrailingZeros, at_point. now rewrite until_none. Qed.
Lemma head_any last ct W s : In ct all_types -> inked s -> has "." s = false \/ IsNumericColType ct = false -> (Z.of_nat (String.length s) <= w_width W)%Z ->
  placed_text last ct (lane_of W) s (out_item last false (ct, W, s)) /\ good false (ct, W, s).
Proof.
  intros TY I P L. destruct (IsNumericColType ct) eqn:N.
  - destruct P as [P|]; [|discriminate]. now apply head_right.
  - split; [now apply text_left|]. intros X. cbn [fst] in X. congruence.
Qed.

Lemma reads_itself F f : fmt_ok F -> valid_binary (f_prec F) (f_emax F) f = true -> ParseFloat F (format_short F f) = Some f.
Proof.
  intros FO V. destruct f as [s|s| |s m e]; [apply ParseFloat_short; auto; exact I| |apply ParseFloat_short; auto; exact I..].
  destruct FO as [->| ->]; destruct s; vm_compute; reflexivity.
Qed.
Lemma zeros_low k : all_c low (zeros k) = true. Proof. induction k; [reflexivity|]. exact IHk. Qed.
Lemma spaces_low k : all_c low (spaces k) = true. Proof. induction k; [reflexivity|]. exact IHk. Qed.
Lemma spaces_length k : String.length (spaces k) = k. Proof. induction k; cbn; congruence. Qed.

Lemma float_out last F f cn cells : fmt_ok F -> valid_binary (f_prec F) (f_emax F) f = true -> In (format_short F f) cells ->
  let it := (float_type F, col_widths cn (float_type F) cells, format_short F f) in
  placed_float last F (lane_of (col_widths cn (float_type F) cells)) f (out_item last true it) /\ good true it.
Proof.
  intros FO V IC. cbv zeta.
  assert (T : is_float_type (float_type F) = true /\ IsNumericColType (float_type F) = true /\ (if float_type F =? "float32" then F32 else F64) = F).
  { destruct FO as [->| ->]; repeat split; reflexivity. }
  destruct T as (T1 & T2 & T3). set (W := col_widths cn (float_type F) cells).
  pose proof (precis_float cn _ cells _ T1 IC) as LP. pose proof (pre_float cn _ cells _ T1 IC) as LN. fold W in LP, LN.
  destruct (col_inv cn (float_type F) cells) as (W1 & W2 & W3 & W4 & W5). fold W in W1, W2, W3, W4, W5.
  assert (SP : (short_places F f <= w_precis W)%Z).
  { destruct f as [s|s| |s m e]; try (rewrite <- precisionOf_short by (auto; exact I); exact LP). exact W4. }
  pose proof (fixed_length F f _ FO V W4 SP) as FL.
  destruct (fixed_digits F f (w_precis W) FO V W4) as (u & z & E & PE & IU & LU & PT).
  assert (NT : numeric_text (float_type F) (w_precis W) (format_short F f) = Some (format_fixed (w_precis W) f)).
  { unfold numeric_text. rewrite T3, reads_itself by assumption. reflexivity. }
  split.
  - assert (LL : (Z.of_nat (String.length u + z) <= w_width W)%Z).
    { rewrite E, length_app_str, zeros_len in FL. destruct (Z.ltb_spec 0 (w_precis W)); [rewrite W3 in W1 by assumption|]; lia. }
    assert (RC : rune_count (u ++ spaces z) = String.length u + z).
    { rewrite count_app_spaces, count_low by exact LU. reflexivity. }
    set (k := Z.to_nat (w_width W - Z.of_nat (String.length u + z))).
    assert (EO : out_item last true (float_type F, W, format_short F f) = (spaces k ++ u ++ (if last then "" else spaces z))%string).
    { unfold out_item, matrix_item. rewrite T2, NT, T1, PE, andb_true_r. unfold pad_left. rewrite RC. fold k. destruct last; [|reflexivity].
      rewrite app_str_nil_r. exact (trim_right_item "" k u z IU). }
    rewrite EO. exists k, u, z. cbn [lane_of l_width l_point l_places]. rewrite !blanks_spaces, <- zeros_copies. split; [exact E|]. split; [reflexivity|].
    split; [intros a; now apply inked_no_space|]. split; [rewrite count_spaces_app, RC; lia|]. split.
    + intros a b EY. destruct PT as [PT|(PP & x & y & EU & HX & HY & LX)].
      * exfalso. apply (f_equal (has ".")) in EY. change ("." ++ b)%string with (String "." b) in EY. rewrite has_here, !has_app, PT, has_spaces_point in EY.
        destruct last; [discriminate|]. rewrite has_spaces_point in EY. discriminate.
      * rewrite EU in EY. change ("." ++ b)%string with (String "." b) in EY. rewrite !app_str_assoc in EY. cbn [append] in EY. rewrite <- app_str_assoc in EY.
        assert (HT : has "." (y ++ (if last then "" else spaces z)) = false) by (rewrite has_app, HY; destruct last; [reflexivity|apply has_spaces_point]).
        assert (HH : has "." (spaces k ++ x) = false) by (rewrite has_app, HX, has_spaces_point; reflexivity).
        rewrite (split_unique "." _ _ _ _ HH HT EY). rewrite length_app_str, spaces_length. lia.
    + intros a b ES. pose proof (precision_split _ a b ES). lia.
  - intros _. exists u. cbn [fst snd]. apply (item_numeric true _ _ _ (format_fixed (w_precis W) f) u z T2 NT); [|exact IU]. now rewrite T1.
Qed.

(** ---------- cells ---------- *)

(** The text of a value, as an item of its column *)
Lemma cell_out last ip h ct v s cn cells : In ct all_types -> cell_ok ct v -> match v with VInt _ z => ct <> "rune" -> (Z.abs z <= 2 ^ 53)%Z | _ => True end ->
  cell_text (Quote ip) (QuoteRune ip) h ct v = Some (Ok s) -> In s cells ->
  let it := (ct, col_widths cn ct cells, s) in
  placed_value ip h last ct (lane_of (col_widths cn ct cells)) v (out_item last true it) /\ good true it.
Proof.
  intros TY [T G] SI E IC. cbv zeta. pose proof (width_covers cn ct cells s (or_intror (or_intror IC))) as L.
  assert (PL : IsNumericColType ct = false -> (exists s, cell_text (Quote ip) (QuoteRune ip) h ct v = Some (Ok s) /\ placed_text last ct (lane_of (col_widths cn ct cells)) s (out_item last true (ct, col_widths cn ct cells, s)))
     /\ good true (ct, col_widths cn ct cells, s)).
  { intros N. split; [exists s; split; [exact E|]; now apply text_left|]. intros X. cbn [fst] in X. congruence. }
  assert (FP : forall F f, fmt_ok F -> valid_binary (f_prec F) (f_emax F) f = true -> ct = float_type F -> s = format_short F f ->
    placed_float last F (lane_of (col_widths cn ct cells)) f (out_item last true (ct, col_widths cn ct cells, s)) /\ good true (ct, col_widths cn ct cells, s)).
  { intros F f FO V -> ->. now apply float_out. }
  assert (IP : forall k z, int_kind ct = Some k -> in_range k z = true -> (Z.abs z <= 2 ^ 53)%Z -> s = dec_of z ->
    placed_text last ct (lane_of (col_widths cn ct cells)) s (out_item last true (ct, col_widths cn ct cells, s)) /\ good true (ct, col_widths cn ct cells, s)).
  { intros k z K R B ->. destruct (int_item ip h ct k z K R B) as [_ X]. destruct (int_fixed z B) as (f & P & Q).
    assert (T' : IsNumericColType ct = true /\ is_float_type ct = false /\ (ct =? "rune") = false /\ (ct =? "float32") = false).
    { clear - K. unfold int_kind in K. repeat (destruct (ct =? _) eqn:? in K; [match goal with H : _ = true |- _ => apply String.eqb_eq in H; subst ct; repeat split; reflexivity end|]). discriminate. }
    destruct T' as (T1 & T2 & T3 & T4). apply text_right; auto.
    - unfold numeric_text. rewrite T4, P, precis_other by now rewrite T2, T3. now rewrite Q.
    - congruence.
    - eapply cell_word_inked, (int_cell ct k z K R). }
  destruct v as [|b|x|k z|f|f|o|o|tm|x]; cbn [has_type go_value] in T, G; try contradiction; cbn [placed_value].
  - subst ct. destruct PL as [(s' & E' & P') ?]; [reflexivity|]. split; [|assumption]. exists s. split; [exact E|]. congruence.
  - subst ct. destruct PL as [(s' & E' & P') ?]; [reflexivity|]. split; [|assumption]. exists s. split; [exact E|]. congruence.
  - destruct (ct =? "rune") eqn:R.
    + apply String.eqb_eq in R. subst ct. destruct PL as [(s' & E' & P') ?]; [reflexivity|]. split; [|assumption]. exists s. split; [exact E|]. congruence.
    + assert (K : int_kind ct = Some k) by (destruct k; try (subst; reflexivity); destruct T as [->| ->]; first [reflexivity|discriminate]).
      destruct (IP k z K G) as [A B]; [apply SI; intros ->; discriminate| |].
      * unfold cell_text in E. rewrite K in E. unfold int_of in E. destruct k; cbn in E; congruence.
      * split; [|exact B]. exists s. split; [exact E|exact A].
  - subst ct. apply (FP F32 f fmt32 G eq_refl). cbn in E. congruence.
  - subst ct. apply (FP F64 f fmt64 G eq_refl). cbn in E. congruence.
  - assert (N : IsNumericColType ct = false) by (destruct T as [->| ->]; reflexivity). destruct (PL N) as [(s' & E' & P') ?]. split; [|assumption]. exists s. split; [exact E|]. congruence.
  - assert (N : IsNumericColType ct = false) by (destruct o; [subst; reflexivity|contradiction]). destruct (PL N) as [(s' & E' & P') ?]. split; [|assumption]. exists s. split; [exact E|]. congruence.
  - subst ct. destruct PL as [(s' & E' & P') ?]; [reflexivity|]. split; [|assumption]. exists s. split; [exact E|]. congruence.
Qed.

(** ---------- rows ---------- *)

Lemma padded_cells_at ip h cts : forall row ss, padded_cells ip h cts row = Ok (Some ss) ->
  List.length ss = List.length cts /\
  forall i ct v, nth_error cts i = Some ct -> nth_error row i = Some v -> exists s, nth_error ss i = Some s /\ cell_text (Quote ip) (QuoteRune ip) h ct v = Some (Ok s).
Proof.
  induction cts as [|ct cts IH]; intros row ss E.
  - cbn in E. assert (ss = []) as -> by (destruct row; congruence). split; [reflexivity|]. intros [|i]; discriminate.
  - destruct row as [|v row]; [discriminate|]. cbn [padded_cells] in E. destruct (cell_text _ _ h ct v) as [[s| |]|] eqn:C; cbn [rbind] in E; try discriminate.
    destruct (padded_cells ip h cts row) as [[l|]| |] eqn:R; cbn [rbind] in E; try discriminate. assert (ss = s :: l) as -> by congruence.
    destruct (IH row l R) as [L N]. split; [cbn; congruence|]. intros [|i] ct' v' A B; cbn [nth_error] in *; [|eauto]. exists s. split; [reflexivity|]. congruence.
Qed.
Lemma padded_rows_at ip h cts : forall rs tx, padded_rows ip h cts rs = Ok (Some tx) -> Forall2 (fun row ss => padded_cells ip h cts row = Ok (Some ss)) rs tx.
Proof.
  induction rs as [|row rs IH]; intros tx E; [assert (tx = []) as -> by (cbn in E; congruence); constructor|]. cbn [padded_rows] in E.
  destruct (padded_cells ip h cts row) as [[l|]| |] eqn:C; cbn [rbind] in E; try discriminate. destruct (padded_rows ip h cts rs) as [[ls|]| |] eqn:R; cbn [rbind] in E; try discriminate.
  assert (tx = l :: ls) as -> by congruence. constructor; auto.
Qed.

Lemma mcols_nth cns cts tx n : forall i, i < n -> nth_error (mcols cns cts tx 0 n) i = Some (nth i cts "", col_widths (nth i cns "") (nth i cts "") (map (fun row => nth i row "") tx)).
Proof.
  intros i L. unfold mcols. rewrite nth_error_map. assert (E : nth_error (seq 0 n) i = Some i).
  { rewrite (nth_error_nth' _ 0) by (rewrite seq_length; exact L). now rewrite seq_nth. }
  now rewrite E.
Qed.
Lemma matrix_lines_items cols : forall tx, cols <> [] -> Forall (fun ss => List.length ss = List.length cols /\ Forall (good true) (combine cols ss)) tx ->
  matrix_lines cols tx = Some (grid_text (map (fun ss => line_items true (combine cols ss)) tx)).
Proof.
  intros tx N. induction 1 as [|ss tx [L G] F IH]; [reflexivity|]. cbn [matrix_lines]. rewrite matrix_line_items, IH; [|exact G|].
  - unfold grid_text, newline. cbn [map append]. rewrite Proofs_StringNested.concat_cons. now rewrite app_str_assoc.
  - destruct cols, ss; try discriminate. congruence.
Qed.

Lemma Forall2_nth_both {A B} (R : A -> B -> Prop) l m : Forall2 R l m -> forall i x, nth_error l i = Some x -> exists y, nth_error m i = Some y /\ R x y.
Proof. induction 1; intros [|i] z E; try discriminate; cbn [nth_error] in *; [|eauto]. injection E as <-. eauto. Qed.
Lemma good_combine ic cols ss : List.length ss = List.length cols -> (forall i c s, nth_error cols i = Some c -> nth_error ss i = Some s -> good ic (c, s)) -> Forall (good ic) (combine cols ss).
Proof.
  revert ss. induction cols as [|c cols IH]; intros [|s ss] L H; try discriminate; cbn [combine]; constructor.
  - exact (H 0 c s eq_refl eq_refl).
  - apply IH; [cbn in L; congruence|]. intros i c' s' A B. exact (H (S i) c' s' A B).
Qed.
Lemma combine_at {A B} (l : list A) : forall (m : list B) i x y, nth_error l i = Some x -> nth_error m i = Some y -> nth_error (combine l m) i = Some (x, y).
Proof. induction l as [|a l IH]; intros [|b m] [|i] x y E F; try discriminate; cbn [combine nth_error] in *; [congruence|auto]. Qed.

Lemma printMatrix_eq n cns cts rs : cns <> [] -> printMatrix n cns cts rs =
  let cols := mcols cns cts rs 0 (List.length cns) in
  match matrix_line false "" (combine cols cns), matrix_line false "" (combine cols cts), matrix_lines cols rs with
  | Some l1, Some l2, Some ls => (name_line n ++ l1 ++ newline ++ l2 ++ newline ++ ls)%string
  | _, _, _ => ""
  end.
Proof. intros N. destruct cns; [congruence|reflexivity]. Qed.
Theorem layout ip h t : wf_table t -> cnames t <> [] -> struct_shape t = false \/ 2 <= List.length (rows t) -> small_ints t ->
  exists grid, StringPadded ip h t = Ok (name_line (tname t) ++ grid_text grid)%string /\ laid_out ip h t grid.
Proof.
  intros W NC SH SI.
  assert (E0 : struct_shape t && (RowCount t <=? 1)%Z = false).
  { destruct SH as [->|H]; [reflexivity|]. unfold RowCount. apply andb_false_iff. right. apply Z.leb_gt. lia. }
  destruct (padded_rows_total ip h (ctypes t) (rows t)) as [tx E]; [apply W|apply W|].
  unfold StringPadded. rewrite types_firstn by exact W. rewrite E. cbn [rbind]. rewrite E0.
  assert (L : List.length (ctypes t) = List.length (cnames t)) by apply W.
  pose proof (padded_rows_at ip h (ctypes t) (rows t) tx E) as FT.
  set (n := List.length (cnames t)) in *. set (cols := mcols (cnames t) (ctypes t) tx 0 n).
  assert (LC : List.length cols = n) by (unfold cols, mcols; now rewrite map_length, seq_length).
  assert (NN : cols <> []) by (intros X; rewrite X in LC; cbn in LC; destruct (cnames t); [congruence|discriminate]).
  assert (CA : forall i cn ct, nth_error (cnames t) i = Some cn -> nth_error (ctypes t) i = Some ct ->
    nth_error cols i = Some (ct, col_widths cn ct (map (fun row => nth i row "") tx)) /\ valid_name cn /\ In ct all_types).
  { intros i cn ct A B. split; [|split].
    - unfold cols. rewrite mcols_nth by (unfold n; eapply nth_error_some_lt; exact A). now rewrite (nth_error_nth _ _ "" A), (nth_error_nth _ _ "" B).
    - pose proof (wf_colnames _ W) as V. rewrite Forall_forall in V. apply V. exact (nth_error_In _ _ A).
    - pose proof (wf_types _ W) as V. rewrite Forall_forall in V. apply V. exact (nth_error_In _ _ B). }
  assert (EX : forall i c, nth_error cols i = Some c -> exists cn ct, nth_error (cnames t) i = Some cn /\ nth_error (ctypes t) i = Some ct).
  { intros i c C. pose proof (nth_error_some_lt _ _ _ C) as LT. rewrite LC in LT.
    destruct (nth_error (cnames t) i) as [cn|] eqn:A; [|apply nth_error_None in A; unfold n in LT; lia].
    destruct (nth_error (ctypes t) i) as [ct|] eqn:B; [|apply nth_error_None in B; unfold n in LT; lia]. eauto. }
  assert (H1 : forall i cn ct last, nth_error (cnames t) i = Some cn -> nth_error (ctypes t) i = Some ct ->
    let w := col_widths cn ct (map (fun row => nth i row "") tx) in
    (placed_text last ct (lane_of w) cn (out_item last false (ct, w, cn)) /\ good false (ct, w, cn)) /\
    (placed_text last ct (lane_of w) ct (out_item last false (ct, w, ct)) /\ good false (ct, w, ct))).
  { intros i cn ct last A B w. destruct (CA i cn ct A B) as (_ & V & T). split.
    - destruct (valid_name_bytes cn V) as [N NB]. apply head_any; [exact T|exact (inked_bytes _ _ name_byte_ink NB N)|left; now apply (all_c_has name_byte)|]. apply width_covers. now left.
    - destruct (type_graphic ct T) as [N NB]. apply head_any; [exact T|exact (inked_bytes _ _ graphic_ink NB N)| |apply width_covers; right; now left].
      clear - T. types T; first [now left|now right]. }
  assert (HC : forall i cn ct r row ss v last, nth_error (cnames t) i = Some cn -> nth_error (ctypes t) i = Some ct -> nth_error (rows t) r = Some row -> nth_error tx r = Some ss -> nth_error row i = Some v ->
    let w := col_widths cn ct (map (fun row => nth i row "") tx) in
    exists s, nth_error ss i = Some s /\ placed_value ip h last ct (lane_of w) v (out_item last true (ct, w, s)) /\ good true (ct, w, s)).
  { intros i cn ct r row ss v last A B R S V w. destruct (CA i cn ct A B) as (_ & _ & T).
    destruct (Forall2_nth_both _ _ _ FT r row R) as (ss' & S' & P). assert (ss' = ss) as -> by congruence. destruct (padded_cells_at ip h _ _ _ P) as [_ PA].
    destruct (PA i ct v B V) as (s & SS & CT). exists s. split; [exact SS|].
    pose proof (wf_cells _ W) as WC. pose proof SI as SC. unfold small_ints in SC. rewrite Forall_forall in WC, SC. specialize (WC row (nth_error_In _ _ R)). specialize (SC row (nth_error_In _ _ R)).
    destruct (Forall2_nth_both _ _ _ WC i ct B) as (v' & V' & OK). destruct (Forall2_nth_both _ _ _ SC i ct B) as (v'' & V'' & SM).
    assert (v' = v) as -> by congruence. assert (v'' = v) as -> by congruence.
    apply (cell_out last ip h ct v s cn _ T OK SM CT). apply in_map_iff. exists ss. split; [exact (nth_error_nth _ _ "" SS)|exact (nth_error_In _ _ S)]. }
  assert (G1 : Forall (good false) (combine cols (cnames t))).
  { apply good_combine; [now rewrite LC|]. intros i c s C A. destruct (EX i c C) as (cn & ct & A' & B). destruct (CA i cn ct A' B) as (C' & _). assert (s = cn) as -> by congruence.
    assert (c = (ct, col_widths cn ct (map (fun row => nth i row "") tx))) as -> by congruence. apply (H1 i cn ct true A' B). }
  assert (G2 : Forall (good false) (combine cols (ctypes t))).
  { apply good_combine; [now rewrite LC|]. intros i c s C A. destruct (EX i c C) as (cn & ct & A' & B). destruct (CA i cn ct A' B) as (C' & _). assert (s = ct) as -> by congruence.
    assert (c = (ct, col_widths cn ct (map (fun row => nth i row "") tx))) as -> by congruence. apply (H1 i cn ct true A' B). }
  assert (LS : forall r ss, nth_error tx r = Some ss -> exists row, nth_error (rows t) r = Some row /\ List.length ss = n).
  { intros r ss S. destruct (nth_error (rows t) r) as [row|] eqn:R.
    - destruct (Forall2_nth_both _ _ _ FT r row R) as (ss' & S' & P). assert (ss' = ss) as -> by congruence. exists row. split; [reflexivity|]. rewrite <- L. apply (padded_cells_at ip h _ _ _ P).
    - exfalso. apply nth_error_None in R. pose proof (nth_error_some_lt _ _ _ S). pose proof (Forall2_len _ _ _ FT). lia. }
  assert (G3 : Forall (fun ss => List.length ss = List.length cols /\ Forall (good true) (combine cols ss)) tx).
  { apply Forall_forall. intros ss IS. apply In_nth_error in IS as [r S]. destruct (LS r ss S) as (row & R & LL). split; [now rewrite LC|].
    apply good_combine; [now rewrite LC|]. intros i c s C A. destruct (EX i c C) as (cn & ct & A' & B). destruct (CA i cn ct A' B) as (C' & _).
    assert (c = (ct, col_widths cn ct (map (fun row => nth i row "") tx))) as -> by congruence.
    assert (RL : List.length row = n). { pose proof (wf_cells _ W) as WC. rewrite Forall_forall in WC. rewrite <- L. symmetry. exact (Forall2_len _ _ _ (WC row (nth_error_In _ _ R))). }
    destruct (nth_error row i) as [v|] eqn:V. 2:{ apply nth_error_None in V. pose proof (nth_error_some_lt _ _ _ A). lia. }
    destruct (HC i cn ct r row ss v true A' B R S V) as (s' & S' & _ & GG). assert (s' = s) as -> by congruence. exact GG. }
  exists (line_items false (combine cols (cnames t)) :: line_items false (combine cols (ctypes t)) :: map (fun ss => line_items true (combine cols ss)) tx).
  split.
  - rewrite printMatrix_eq by exact NC. cbv zeta. fold n. fold cols. rewrite (matrix_lines_items cols tx NN G3), !matrix_line_items; [|exact G2| |exact G1|].
    2:{ clear - L LC NN NC. destruct cols; [congruence|]. destruct (ctypes t); [|discriminate]. destruct (cnames t); [congruence|discriminate]. }
    2:{ clear - LC NN NC. destruct cols; [congruence|]. destruct (cnames t); [congruence|discriminate]. }
    unfold grid_text, newline. cbn [map append]. rewrite !Proofs_StringNested.concat_cons. now rewrite !app_str_assoc.
  - assert (LI : forall ic ss, List.length ss = n -> List.length (line_items ic (combine cols ss)) = n).
    { intros ic ss LL. rewrite line_items_len, combine_length, LC, LL. apply Nat.min_id. }
    split; [cbn [List.length]; rewrite map_length; now rewrite <- (Forall2_len _ _ _ FT)|]. split.
    + constructor; [now apply LI|]. constructor; [now apply LI|]. apply Forall_forall. intros l IL. apply in_map_iff in IL as (ss & <- & IS). apply LI.
      apply In_nth_error in IS as [r S]. destruct (LS r ss S) as (row & _ & LL). exact LL.
    + intros i cn ct A B. cbv zeta. destruct (CA i cn ct A B) as (C & _). set (w := col_widths cn ct (map (fun row => nth i row "") tx)) in *.
      exists (lane_of w). unfold item_at. cbn [nth]. fold n.
      assert (NI : forall ic ss s, List.length ss = n -> nth_error ss i = Some s -> nth i (line_items ic (combine cols ss)) "" = out_item (Nat.eqb (S i) n) ic (ct, w, s)).
      { intros ic ss s LL S. rewrite (line_items_nth ic _ i (ct, w, s)) by now apply combine_at. now rewrite combine_length, LC, LL, Nat.min_id. }
      rewrite (NI false (cnames t) cn), (NI false (ctypes t) ct) by auto. split; [apply (H1 i cn ct _ A B)|]. split; [apply (H1 i cn ct _ A B)|]. split.
      2:{ intros NS. cbn [lane_of l_width]. destruct (width_tight cn ct (map (fun row => nth i row "") tx) NS) as [H|[H|(s & IS & H)]]; fold w in H.
          - left. lia.
          - right. left. lia.
          - right. right. apply in_map_iff in IS as (ss & ES & ISS). apply In_nth_error in ISS as [r S]. destruct (LS r ss S) as (row & R & LL).
            destruct (Forall2_nth_both _ _ _ FT r row R) as (ss' & S' & P). assert (ss' = ss) as -> by congruence. destruct (padded_cells_at ip h _ _ _ P) as [_ PA].
            assert (RL : List.length row = n). { pose proof (wf_cells _ W) as WC. rewrite Forall_forall in WC. rewrite <- L. symmetry. exact (Forall2_len _ _ _ (WC row (nth_error_In _ _ R))). }
            pose proof (nth_error_some_lt _ _ _ A) as LT. fold n in LT.
            destruct (nth_error row i) as [v|] eqn:V; [|apply nth_error_None in V; lia]. destruct (PA i ct v B V) as (s' & SS & CT).
            exists row, v, s. split; [exact (nth_error_In _ _ R)|]. split; [exact V|]. rewrite (nth_error_nth _ _ "" SS) in ES. rewrite <- ES. split; [exact CT|]. rewrite ES. lia. }
      intros r row v R V. cbn [Nat.add nth]. destruct (Forall2_nth_both _ _ _ FT r row R) as (ss & S & P).
      destruct (HC i cn ct r row ss v (Nat.eqb (Datatypes.S i) n) A B R S V) as (s & SS & PV & _). destruct (LS r ss S) as (_ & _ & LL).
      rewrite (nth_error_nth (map (fun ss => line_items true (combine cols ss)) tx) r [] (map_nth_error _ r tx S)). rewrite (NI true ss s LL SS). exact PV.
Qed.
