(** Proofs_Lines.v -- lines of words: what the line reader makes of the lines the printers write. *)
From Coq Require Import ZArith NArith List String Ascii Bool Lia.
From Verif Require Import Base Model_Names Model_Table Spec Model_Lex Model_Parser Model_Print Proofs_Lib Proofs_Table Proofs_Lex Proofs_Num Proofs_Float Proofs_Parser Proofs_FloatText.
Import ListNotations.
Local Open Scope list_scope.
Local Open Scope string_scope.

(** ---------- white space ---------- *)

(** Visible ASCII characters *)
Definition graphic (c : ascii) : bool := Model_Lex.between 33 126 c.
(** The bytes of names *)
Definition name_byte (c : ascii) : bool := isLetter c || Ascii.eqb c underscore || isNumber c.
(** The second bytes of the encodings of white space *)
Definition space_second (c : ascii) : bool := existsb (Z.eqb (code c)) [128; 129; 133; 154; 160]%Z.

Lemma name_byte_facts c : name_byte c = true -> (33 <= code c)%Z /\ space_second c = false /\ is_white c = false /\
  existsb (fun e => match srev e with String d _ => Ascii.eqb d c | _ => false end) space_encodings = false.
Proof.
  assert (A : forallb (fun n => let c := ascii_of_nat n in negb (name_byte c) || ((33 <=? code c)%Z && negb (space_second c) && negb (is_white c)
     && negb (existsb (fun e => match srev e with String d _ => Ascii.eqb d c | _ => false end) space_encodings))) (seq 0 256) = true) by (vm_compute; reflexivity).
  rewrite forallb_forall in A. pattern c. apply all_ascii. intros n Hn. specialize (A n ltac:(apply in_seq; lia)). cbv zeta in A.
  intros N. rewrite N in A. cbn [negb orb] in A. rewrite !andb_true_iff, !negb_true_iff, Z.leb_le in A. tauto.
Qed.
Lemma graphic_facts c : graphic c = true -> (33 <= code c <= 126)%Z /\ is_white c = false /\ is_blank c = false /\
  existsb (fun e => match srev e with String d _ => Ascii.eqb d c | _ => false end) space_encodings = false /\
  existsb (fun e => match e with String d _ => Ascii.eqb d c | _ => false end) space_encodings = false.
Proof.
  assert (A : forallb (fun n => let c := ascii_of_nat n in negb (graphic c) || ((33 <=? code c)%Z && (code c <=? 126)%Z && negb (is_white c) && negb (is_blank c)
     && negb (existsb (fun e => match srev e with String d _ => Ascii.eqb d c | _ => false end) space_encodings)
     && negb (existsb (fun e => match e with String d _ => Ascii.eqb d c | _ => false end) space_encodings))) (seq 0 256) = true) by (vm_compute; reflexivity).
  rewrite forallb_forall in A. pattern c. apply all_ascii. intros n Hn. specialize (A n ltac:(apply in_seq; lia)). cbv zeta in A.
  intros N. rewrite N in A. cbn [negb orb] in A. rewrite !andb_true_iff, !negb_true_iff, !Z.leb_le in A. tauto.
Qed.
Lemma strip_first encs c r : existsb (fun e => match e with String d _ => Ascii.eqb d c | _ => false end) encs = false -> Forall (fun e => e <> "") encs ->
  strip_space encs (String c r) = None.
Proof.
  intros H N. apply strip_none. intros e I. rewrite Forall_forall in N. specialize (N e I). destruct e as [|d e]; [congruence|].
  assert (X : Ascii.eqb d c = false).
  { destruct (Ascii.eqb d c) eqn:E; [|reflexivity]. rewrite <- H. symmetry. apply existsb_exists. exists (String d e). auto. }
  cbn [String.prefix]. destruct (ascii_dec d c); [|reflexivity]. subst. now rewrite Ascii.eqb_refl in X.
Qed.
Lemma strip_graphic c r : graphic c = true -> strip_space space_encodings (String c r) = None.
Proof. intros G. apply strip_first; [|apply encodings_nonempty]. now apply graphic_facts. Qed.
Lemma existsb_map {A B} (f : B -> bool) (g : A -> B) l : existsb f (map g l) = existsb (fun x => f (g x)) l.
Proof. induction l as [|x l IH]; [reflexivity|]. cbn. now rewrite IH. Qed.
Lemma strip_rev_last c r : graphic c = true \/ name_byte c = true -> strip_space (map srev space_encodings) (String c r) = None.
Proof.
  intros G. apply strip_first; [|apply rev_encodings_nonempty]. rewrite existsb_map. destruct G as [G|G].
  - now apply graphic_facts.
  - now apply name_byte_facts.
Qed.
Lemma encodings_second e : In e space_encodings -> match e with String c "" => (code c < 33)%Z | String c (String d _) => space_second d = true | _ => False end.
Proof.
  assert (A : forallb (fun e => match e with String c "" => (code c <? 33)%Z | String c (String d _) => space_second d | _ => false end) space_encodings = true) by (vm_compute; reflexivity).
  rewrite forallb_forall in A. intros I. specialize (A e I). cbv beta in A. destruct e as [|c [|d e]]; [discriminate|now apply Z.ltb_lt in A|exact A].
Qed.
Lemma strip_name c r : name_byte c = true -> match r with String d _ => space_second d = false | _ => True end -> strip_space space_encodings (String c r) = None.
Proof.
  intros N R. apply strip_none. intros e I. apply encodings_second in I. destruct (name_byte_facts c N) as (C & _).
  destruct e as [|a [|b e]]; [contradiction| |]; cbn [String.prefix].
  - destruct (ascii_dec a c); [subst; lia|reflexivity].
  - destruct (ascii_dec a c); [|reflexivity]. destruct r as [|d r]; [reflexivity|]. cbn [String.prefix].
    destruct (ascii_dec b d); [subst; congruence|reflexivity].
Qed.

(** Texts that do not begin with white space, and that do not end with it *)
Definition hard_first (s : string) : Prop := s <> "" /\ forall r, match r with String d _ => space_second d = false | _ => True end -> strip_space space_encodings (s ++ r) = None.
Definition hard_last (s : string) : Prop := exists a c, s = a ++ String c "" /\ (graphic c = true \/ name_byte c = true).

Lemma trim_none encs fuel s : strip_space encs s = None -> trim_spaces fuel encs s = s.
Proof. intros H. destruct fuel; [reflexivity|]. cbn [trim_spaces]. now rewrite H. Qed.
Lemma strip_blank s : strip_space space_encodings (String " " s) = Some s.
Proof. unfold strip_space, space_encodings, bytes. cbn. destruct s; reflexivity. Qed.
Lemma strip_blank_rev s : strip_space (map srev space_encodings) (String " " s) = Some s.
Proof. unfold strip_space, space_encodings, bytes. cbn. destruct s; reflexivity. Qed.
Lemma trim_spaces_blanks encs k s : (forall s, strip_space encs (String " " s) = Some s) -> strip_space encs s = None ->
  forall fuel, (k <= fuel)%nat -> trim_spaces fuel encs (spaces k ++ s) = s.
Proof.
  intros B N. induction k as [|k IH]; intros fuel L.
  - now apply trim_none.
  - destruct fuel as [|fuel]; [lia|]. cbn [spaces append trim_spaces]. rewrite B. apply IH. lia.
Qed.
Lemma spaces_len n : String.length (spaces n) = n.
Proof. induction n; cbn; congruence. Qed.
Lemma spaces_app a b : spaces a ++ spaces b = spaces (a + b).
Proof. induction a; [reflexivity|]. cbn. now f_equal. Qed.
Lemma srev_spaces n : srev (spaces n) = spaces n.
Proof. induction n; [reflexivity|]. rewrite spaces_snoc at 1. rewrite srev_app_str, IHn. reflexivity. Qed.

Lemma TrimSpace_core k s j : s <> "" -> (forall r, strip_space space_encodings (s ++ spaces r) = None) -> hard_last s -> TrimSpace (spaces k ++ s ++ spaces j) = s.
Proof.
  intros N F (a & c & E & L). unfold TrimSpace. cbv zeta.
  rewrite (trim_spaces_blanks _ k (s ++ spaces j) strip_blank (F j)) by (rewrite length_app_str, spaces_len; lia).
  rewrite srev_app_str, srev_spaces. rewrite (trim_spaces_blanks _ j (srev s) strip_blank_rev).
  - apply srev_srev.
  - rewrite E, srev_app_str. cbn [append srev srev_app]. now apply strip_rev_last.
  - rewrite length_app_str, spaces_len. lia.
Qed.

(** ---------- lines of words ---------- *)

(** The words with at least one space between them *)
Inductive spaced : list string -> string -> Prop :=
  | sd_one w : spaced [w] w
  | sd_cons w ws k s : spaced ws s -> spaced (w :: ws) (w ++ spaces (S k) ++ s).
(** and any number of spaces around *)
Definition spread (ws : list string) (s : string) : Prop := exists k j s', s = spaces k ++ s' ++ spaces j /\ spaced ws s'.

Lemma spread_one k w j : spread [w] (spaces k ++ w ++ spaces j).
Proof. exists k, j, w. split; [reflexivity|constructor]. Qed.
Lemma spread_cons k w j ws s : spread ws s -> spread (w :: ws) ((spaces k ++ w ++ spaces j) ++ " " ++ s).
Proof.
  intros (k' & j' & s' & -> & D). exists k, j', (w ++ spaces (S (j + k')) ++ s')%string. split; [|now constructor].
  rewrite !app_str_assoc. do 2 f_equal. rewrite <- !app_str_assoc. do 2 f_equal.
  change (S (j + k')) with (S j + k')%nat. rewrite <- spaces_app. f_equal. now rewrite spaces_snoc.
Qed.
Lemma spaced_concat ws : ws <> [] -> spaced ws (String.concat " " ws).
Proof.
  induction ws as [|w ws IH]; [congruence|]. intros _. destruct ws as [|v ws]; [constructor|].
  change (String.concat " " (w :: v :: ws)) with (w ++ spaces 1 ++ String.concat " " (v :: ws)). constructor. now apply IH.
Qed.
Lemma spaced_spread ws s : spaced ws s -> spread ws s.
Proof. intros D. exists 0%nat, 0%nat, s. split; [|exact D]. cbn. now rewrite app_str_nil_r. Qed.
Lemma hard_last_app a b : hard_last b -> hard_last (a ++ b).
Proof. intros (x & c & -> & H). exists (a ++ x)%string, c. now rewrite app_str_assoc. Qed.
Lemma spaced_hard ws s : spaced ws s -> Forall hard_first ws -> Forall hard_last ws ->
  s <> "" /\ (forall r, match r with String d _ => space_second d = false | _ => True end -> strip_space space_encodings (s ++ r) = None) /\ hard_last s.
Proof.
  induction 1 as [w|w ws k s D IH]; intros F L.
  - inversion F as [|? ? [N H] _]; subst. inversion L; subst. auto.
  - inversion F as [|? ? [N H] F']; subst. inversion L as [|? ? _ L']; subst. destruct (IH F' L') as (A & B & C). split; [|split].
    + destruct w; [congruence|discriminate].
    + intros r R. rewrite app_str_assoc. apply H. reflexivity.
    + apply hard_last_app, hard_last_app, C.
Qed.
Lemma TrimSpace_spread ws s : spread ws s -> Forall hard_first ws -> Forall hard_last ws -> spaced ws (TrimSpace s).
Proof.
  intros (k & j & s' & -> & D) F L. destruct (spaced_hard ws s' D F L) as (A & B & C). rewrite TrimSpace_core; auto.
  intros r. apply B. destruct r; cbn; auto.
Qed.

Lemma split_white_word w s : all_c (fun c => negb (is_white c)) w = true -> split_white (w ++ s) =
  match split_white s with x :: xs => (w ++ x)%string :: xs | [] => [w] end.
Proof.
  induction w as [|c w IH]; cbn [all_c append].
  - intros _. destruct (split_white s) eqn:E; [now apply split_white_nonempty in E|reflexivity].
  - rewrite andb_true_iff, negb_true_iff. intros [C A]. cbn [split_white]. rewrite C, (IH A).
    destruct (split_white s) eqn:E; [now apply split_white_nonempty in E|reflexivity].
Qed.
Lemma split_white_spaces k c s : is_white c = false -> split_white (spaces (S k) ++ String c s) = "" :: split_white (String c s).
Proof.
  intros C. induction k as [|k IH].
  - cbn [spaces append]. change (split_white (String " " (String c s))) with (if is_white c then split_white (String c s) else "" :: split_white (String c s)).
    now rewrite C.
  - change (spaces (S (S k)) ++ String c s) with (String " " (spaces (S k) ++ String c s)). 
    change (split_white (String " " (spaces (S k) ++ String c s))) with (split_white (spaces (S k) ++ String c s)). exact IH.
Qed.
Definition word (w : string) : Prop := w <> "" /\ all_c (fun c => negb (is_white c)) w = true.
Lemma word_first w : word w -> exists c r, w = String c r /\ is_white c = false.
Proof. intros [N A]. destruct w as [|c r]; [congruence|]. cbn in A. rewrite andb_true_iff, negb_true_iff in A. exists c, r. now destruct A. Qed.
Lemma spaced_first ws s : spaced ws s -> Forall word ws -> exists c r, s = String c r /\ is_white c = false.
Proof.
  destruct 1 as [w|w ws k s D]; intros F; inversion F; subst; destruct (word_first w ltac:(assumption)) as (c & r & -> & W); cbn [append]; eauto.
Qed.
Lemma split_white_spaced ws s : spaced ws s -> Forall word ws -> split_white s = ws.
Proof.
  induction 1 as [w|w ws k s D IH]; intros F.
  - inversion F as [|? ? [_ A] _]; subst. rewrite <- (app_str_nil_r w) at 1. rewrite split_white_word by exact A. cbn. now rewrite app_str_nil_r.
  - inversion F as [|? ? [_ A] F']; subst. destruct (spaced_first ws s D F') as (c & r & -> & C).
    rewrite split_white_word by exact A. rewrite split_white_spaces by exact C. rewrite app_str_nil_r. now rewrite IH.
Qed.

(** ---------- Fields of one word ---------- *)

Lemma fields_graphic w : all_c graphic w = true -> w <> "" -> forall fuel, (String.length w < fuel)%nat -> fields_from fuel w = (true, [w]).
Proof.
  induction w as [|c w IH]; [congruence|]. cbn [all_c]. rewrite andb_true_iff. intros [G A] _ fuel L. destruct fuel as [|fuel]; [lia|].
  cbn [fields_from]. rewrite strip_graphic by exact G. cbn [String.length] in L. destruct w as [|d w].
  - destruct fuel; reflexivity.
  - rewrite IH; [reflexivity|exact A|discriminate|lia].
Qed.
Lemma Fields_word w : all_c graphic w = true -> w <> "" -> Fields w = [w].
Proof. intros A N. unfold Fields. rewrite fields_graphic; auto. Qed.

(** ---------- lines ---------- *)

Lemma lines_line l s : has nl l = false -> lines (l ++ newline ++ s) = l :: lines s.
Proof.
  induction l as [|c l IH]; intros H.
  - reflexivity.
  - unfold has in H. cbn [list_ascii_of_string existsb] in H. apply orb_false_iff in H as [C H]. cbn [append lines].
    rewrite Ascii.eqb_sym, C. now rewrite (IH H).
Qed.
Fixpoint text_of (ls : list string) : string := match ls with [] => "" | l :: r => l ++ newline ++ text_of r end.
Lemma lines_text ls s : Forall (fun l => has nl l = false) ls -> lines (text_of ls ++ s) = (ls ++ lines s)%list.
Proof.
  induction 1 as [|l ls H F IH]; [reflexivity|]. cbn [text_of]. rewrite !app_str_assoc. rewrite lines_line by exact H. now rewrite IH.
Qed.
Lemma has_spaces n : has nl (spaces n) = false.
Proof. induction n; [reflexivity|]. exact IHn. Qed.
Lemma spaced_no_nl ws s : spaced ws s -> Forall (fun w => has nl w = false) ws -> has nl s = false.
Proof.
  induction 1 as [w|w ws k s D IH]; intros F; inversion F; subst; [assumption|]. rewrite !has_app, has_spaces. rewrite IH by assumption.
  rewrite H1. reflexivity.
Qed.
Lemma spread_no_nl ws s : spread ws s -> Forall (fun w => has nl w = false) ws -> has nl s = false.
Proof. intros (k & j & s' & -> & D) F. rewrite !has_app, !has_spaces, (spaced_no_nl ws s' D F). reflexivity. Qed.

(** ---------- names and types ---------- *)

Lemma valid_name_bytes n : valid_name n -> n <> "" /\ all_c name_byte n = true.
Proof.
  intros V. apply IsValidColName_spec in V. unfold IsValidColName in V. destruct (isValidName n) eqn:I; [|discriminate]. clear V.
  destruct n as [|c r]; [discriminate|]. split; [discriminate|]. cbn [isValidName] in I. cbn [all_c]. unfold name_byte at 1.
  destruct (isLetter c); cbn [negb andb orb] in *; [|destruct (Ascii.eqb c underscore); cbn [negb andb orb] in *; [|discriminate]].
  all: revert I; clear; induction r as [|d r IH]; [reflexivity|]; cbn [name_rest all_c]; unfold name_byte at 1;
       destruct (isLetter d), (Ascii.eqb d underscore), (isNumber d); cbn; try discriminate; exact IH.
Qed.
Lemma all_c_last f s : all_c f s = true -> s <> "" -> exists a c, s = a ++ String c "" /\ f c = true.
Proof.
  pattern s. apply string_snoc; [congruence|]. intros a c _ A _. exists a, c. split; [reflexivity|]. rewrite all_c_app, andb_true_iff in A.
  cbn in A. now destruct (f c).
Qed.
Lemma name_byte_not_nl c : name_byte c = true -> Ascii.eqb nl c = false.
Proof. intros N. destruct (name_byte_facts c N) as (C & _). rewrite eqb_code, code_nl. apply Z.eqb_neq. lia. Qed.
Lemma name_word n : n <> "" -> all_c name_byte n = true -> word n /\ hard_first n /\ hard_last n /\ has nl n = false.
Proof.
  intros N A. repeat split; auto.
  - eapply all_c_impl; [|exact A]. intros c C. apply negb_true_iff. now apply name_byte_facts.
  - intros r R. destruct n as [|c n]; [congruence|]. cbn in A. apply andb_true_iff in A as [C A]. cbn [append]. apply strip_name; [exact C|].
    destruct n as [|d n]; [exact R|]. cbn in A. apply andb_true_iff in A as [D _]. cbn [append]. now apply name_byte_facts.
  - destruct (all_c_last _ _ A N) as (a & c & E & C). exists a, c. auto.
  - rewrite has_all_c, negb_false_iff. eapply all_c_impl; [|exact A]. intros c C. now rewrite name_byte_not_nl.
Qed.
Lemma graphic_not_nl c : graphic c = true -> Ascii.eqb nl c = false.
Proof. intros N. destruct (graphic_facts c N) as (C & _). rewrite eqb_code, code_nl. apply Z.eqb_neq. lia. Qed.
Lemma graphic_hard_first c r : graphic c = true -> hard_first (String c r).
Proof. intros G. split; [discriminate|]. intros s _. cbn [append]. now apply strip_graphic. Qed.
Lemma graphic_word w : w <> "" -> all_c graphic w = true -> word w /\ hard_first w /\ hard_last w /\ has nl w = false.
Proof.
  intros N A. repeat split; auto.
  - eapply all_c_impl; [|exact A]. intros c C. apply negb_true_iff. now apply graphic_facts.
  - destruct w as [|c w]; [congruence|]. cbn in A. apply andb_true_iff in A as [C _]. now apply graphic_hard_first.
  - destruct (all_c_last _ _ A N) as (a & c & E & C). exists a, c. auto.
  - rewrite has_all_c, negb_false_iff. eapply all_c_impl; [|exact A]. intros c C. now rewrite graphic_not_nl.
Qed.
Lemma type_graphic ct : In ct all_types -> ct <> "" /\ all_c graphic ct = true.
Proof.
  assert (A : forallb (fun ct => negb (ct =? "") && all_c graphic ct) all_types = true) by (vm_compute; reflexivity).
  rewrite forallb_forall in A. intros I. specialize (A ct I). rewrite andb_true_iff, negb_true_iff, String.eqb_neq in A. exact A.
Qed.
