(** Proofs_Indent2.v -- what json.Indent writes. *)
From Coq Require Import ZArith NArith List String Ascii Bool Lia.
From Verif Require Import Base Model_Lex Model_Json Model_Indent Spec_Foreign Spec_Indent Proofs_Lib Proofs_Lex Proofs_JsonText Proofs_Says Props_JsonGrammar Proofs_Indent.
Import ListNotations.
Local Open Scope list_scope.
Local Open Scope string_scope.

Lemma indent_app i a b : indent_bytes i (a ++ b) = let '(j, x) := indent_bytes i a in let '(k, y) := indent_bytes j b in (k, x ++ y).
Proof.
  revert i. induction a as [|c a IH]; intros i; cbn [append indent_bytes]; [destruct (indent_bytes i b); reflexivity|].
  destruct (indent_byte i c) as [j x]. rewrite IH. destruct (indent_bytes j a) as [k y]. destruct (indent_bytes k b) as [l z]. now rewrite app_str_assoc.
Qed.
(** [goes i a j x]: from i, the bytes a lead to j and write x. *)
Definition goes (i : ind) (a : string) (j : ind) (x : string) : Prop := indent_bytes i a = (j, x).
Lemma goes_app i a j x b k y : goes i a j x -> goes j b k y -> goes i (a ++ b) k (x ++ y).
Proof. unfold goes. intros A B. now rewrite indent_app, A, B. Qed.
Lemma goes_nil i : goes i "" i "".
Proof. reflexivity. Qed.
Lemma goes_cons i c j x b k y : indent_byte i c = (j, x) -> goes j b k y -> goes i (String c b) k (x ++ y).
Proof. unfold goes. intros A B. cbn [indent_bytes]. now rewrite A, B. Qed.

Lemma tabs_eq n : indent_tabs n = tabs n.
Proof. induction n; cbn; congruence. Qed.
Lemma line_eq n : indent_line n = line n.
Proof. unfold indent_line, line. now rewrite tabs_eq. Qed.

(** ---------- in strings ---------- *)

Lemma inside_byte n d b c : Ascii.eqb c dquote = false -> Ascii.eqb c bslash = false -> indent_byte (mkI Inside n d b) c = (mkI Inside n d true, String c "").
Proof. intros A B. unfold indent_byte. cbn [in_place in_need in_depth]. now rewrite A, B. Qed.
Lemma inside_bytes s : all_c (fun c => negb (Ascii.eqb c dquote) && negb (Ascii.eqb c bslash)) s = true -> forall n d, goes (mkI Inside n d true) s (mkI Inside n d true) s.
Proof.
  induction s as [|c s IH]; intros A n d; [reflexivity|]. cbn [all_c] in A. apply andb_true_iff in A as [C A]. apply andb_true_iff in C as [C1 C2]. apply negb_true_iff in C1, C2.
  change (String c s) with (String c "" ++ s) at 2. eapply goes_cons; [now apply inside_byte|]. now apply IH.
Qed.
Lemma all_c_imp (f g : ascii -> bool) s : (forall c, f c = true -> g c = true) -> all_c f s = true -> all_c g s = true.
Proof. intros H. induction s as [|c s IH]; cbn [all_c]; [auto|]. rewrite !andb_true_iff. intros [A B]. auto. Qed.
Lemma rune_inside r : valid_rune r = true -> r <> 34%Z -> r <> 92%Z -> all_c (fun c => negb (Ascii.eqb c dquote) && negb (Ascii.eqb c bslash)) (encode r) = true.
Proof.
  intros V N1 N2. destruct (Z.ltb_spec r 128) as [L|L].
  - assert (R : (0 <= r < 128)%Z) by (apply valid_rune_range in V; lia). rewrite encode_ascii by auto. cbn [all_c]. rewrite !eqb_code, code_dquote, code_bslash, code_chr by lia.
    rewrite (proj2 (Z.eqb_neq _ _) N1), (proj2 (Z.eqb_neq _ _) N2). reflexivity.
  - eapply all_c_imp; [|exact (encode_high r L V)]. cbv beta. intros c H. apply Z.leb_le in H. rewrite !eqb_code, code_dquote, code_bslash.
    destruct (Z.eqb_spec (code c) 34); [lia|]. destruct (Z.eqb_spec (code c) 92); [lia|]. reflexivity.
Qed.
Lemma escape_inside e v n d : u_escape e v -> goes (mkI Inside n d true) e (mkI Inside n d true) e.
Proof.
  intros (a & b & c & f & x & y & z & w & A & B & C & F & -> & _).
  assert (H : forall c d, hex_digit c d -> (negb (Ascii.eqb c dquote) && negb (Ascii.eqb c bslash))%bool = true).
  { intros c0 d0 H. unfold hex_digit in H. cbn [In] in H. repeat (destruct H as [H|H]; [injection H as <- _; reflexivity|]). destruct H. }
  apply H in A, B, C, F. change (String bslash (String "u" (String a (String b (String c (String f "")))))) with (String bslash "" ++ String "u" "" ++ String a (String b (String c (String f "")))) at 2.
  eapply goes_cons; [reflexivity|]. eapply goes_cons; [reflexivity|]. apply inside_bytes. cbn [all_c]. now rewrite A, B, C, F.
Qed.
Lemma says_goes t v : says t v -> forall n d, goes (mkI Inside n d true) t (mkI Outside n d true) t.
Proof.
  induction 1 as [|r t v V L N1 N2 S IH|c t v C N S IH|c z t v I S IH|e r t v U V S IH|e x e' y t v U HX U' LY S IH|e x t v U HL N S IH]; intros n d.
  - reflexivity.
  - eapply goes_app; [|apply IH]. apply inside_bytes. now apply rune_inside.
  - change (String c t) with (String c "" ++ t) at 2. eapply goes_cons; [|apply IH]. apply inside_byte; rewrite eqb_code, ?code_dquote, ?code_bslash; apply Z.eqb_neq; lia.
  - change (String bslash (String c t)) with (String bslash "" ++ String c "" ++ t) at 2. eapply goes_cons; [reflexivity|]. eapply goes_cons; [reflexivity|]. apply IH.
  - eapply goes_app; [|apply IH]. eapply escape_inside; eauto.
  - eapply goes_app; [eapply escape_inside; eauto|]. eapply goes_app; [eapply escape_inside; eauto|]. apply IH.
  - eapply goes_app; [|apply IH]. eapply escape_inside; eauto.
Qed.

(** ---------- outside ---------- *)

(** The depth and what is written before the first byte of a value *)
Definition deeper (need : bool) (d : nat) : nat := if need then S d else d.
Definition opens (need : bool) (d : nat) : string := if need then line (S d) else "".

Definition bland (c : ascii) : bool := negb (json_space c) && negb (one_of "[]{},:" c) && negb (Ascii.eqb c dquote).
Lemma bland_spec c : bland c = true -> json_space c = false /\ Ascii.eqb c dquote = false
  /\ Ascii.eqb c "[" = false /\ Ascii.eqb c "]" = false /\ Ascii.eqb c "{" = false /\ Ascii.eqb c "}" = false /\ Ascii.eqb c "," = false /\ Ascii.eqb c ":" = false.
Proof. destruct c as [[] [] [] [] [] [] [] []]; vm_compute; intros E; try discriminate E; auto 12. Qed.
Lemma bland_byte n d b c : bland c = true -> indent_byte (mkI Outside n d b) c = (mkI Outside false (deeper n d) true, opens n d ++ String c "").
Proof.
  intros H. apply bland_spec in H as (A & C & X1 & X2 & X3 & X4 & X5 & X6).
  unfold indent_byte. cbn [in_place in_need in_depth in_begun]. rewrite A. rewrite X1, X2, X3, X4, X5, X6, C. cbn [orb negb]. rewrite andb_true_r. unfold opens, deeper. destruct n; [now rewrite line_eq|reflexivity].
Qed.
Lemma bland_bytes s : all_c bland s = true -> forall d, goes (mkI Outside false d true) s (mkI Outside false d true) s.
Proof.
  induction s as [|c s IH]; intros A d; [reflexivity|]. cbn [all_c] in A. apply andb_true_iff in A as [C A].
  change (String c s) with (String c "" ++ s) at 2. eapply goes_cons; [exact (bland_byte false d true c C)|]. now apply IH.
Qed.
Lemma blank_goes b : blank b -> forall n d g, n = true \/ d <> O \/ g = false -> goes (mkI Outside n d g) b (mkI Outside n d g) "".
Proof.
  induction b as [|c b IH]; intros B n d g H; [reflexivity|]. apply blank_inv in B as [C B]. change "" with ("" ++ "") at 1. eapply goes_cons; [|now apply IH].
  unfold indent_byte. cbn [in_place in_need in_depth in_begun]. rewrite C. f_equal.
  destruct H as [-> |[H| ->]]; [now rewrite andb_false_r| |reflexivity]. destruct d; [congruence|]. now rewrite andb_false_r.
Qed.
Lemma blank_after b : blank b -> goes (mkI Outside false 0 true) b (mkI Outside false 0 true) b.
Proof.
  induction b as [|c b IH]; intros B; [reflexivity|]. apply blank_inv in B as [C B]. change (String c b) with (String c "" ++ b) at 2. eapply goes_cons; [|now apply IH].
  unfold indent_byte. cbn [in_place in_need in_depth in_begun]. now rewrite C.
Qed.

Lemma digits_bland s : all_digits s -> all_c bland s = true.
Proof.
  induction s as [|c s IH]; [reflexivity|]. intros A. inversion A as [|? ? C A' [E1 E2]]; subst. cbn [all_c]. rewrite IH by exact A'. rewrite andb_true_r. revert C. clear.
  destruct c as [[] [] [] [] [] [] [] []]; vm_compute; intros E; try discriminate E; reflexivity.
Qed.
Lemma number_bland t : number_text t -> all_c bland t = true.
Proof.
  intros (sg & a & f & e & S & A & F & E & ->). rewrite !all_c_app.
  replace (all_c bland sg) with true by (cbn [In] in S; destruct S as [<-|[<-|[]]]; reflexivity).
  replace (all_c bland a) with true.
  2:{ destruct A as [|c s D _ H]; [reflexivity|]. symmetry. apply digits_bland. constructor; auto. }
  replace (all_c bland f) with true.
  2:{ destruct F as [|s [_ H]]; [reflexivity|]. cbn [all_c]. now rewrite (digits_bland s H). }
  destruct E as [|e sign s [-> | ->] I [_ H]]; [reflexivity|..]; cbn [all_c]; rewrite all_c_app, (digits_bland s H); cbn [In] in I; destruct I as [<-|[<-|[<-|[]]]]; reflexivity.
Qed.
Lemma bland_goes c s n d b : all_c bland (String c s) = true -> goes (mkI Outside n d b) (String c s) (mkI Outside false (deeper n d) true) (opens n d ++ String c s).
Proof.
  cbn [all_c]. rewrite andb_true_iff. intros [C A]. replace (opens n d ++ String c s) with ((opens n d ++ String c "") ++ s) by (rewrite app_str_assoc; reflexivity).
  eapply goes_cons; [now apply bland_byte|]. now apply bland_bytes.
Qed.
Lemma string_goes t v n d b : string_says t v -> goes (mkI Outside n d b) t (mkI Outside false (deeper n d) true) (opens n d ++ t).
Proof.
  intros (s & -> & S). replace (opens n d ++ String dquote s) with ((opens n d ++ String dquote "") ++ s) by (rewrite app_str_assoc; reflexivity).
  eapply goes_cons; [|eapply says_goes; exact S]. unfold indent_byte. cbn [in_place in_need in_depth in_begun]. destruct n; unfold opens, deeper; rewrite <- ?line_eq; reflexivity.
Qed.
Lemma scalar_goes t j n d b : scalar t j -> goes (mkI Outside n d b) t (mkI Outside false (deeper n d) true) (opens n d ++ t).
Proof.
  intros [| | |t' N|t' v S]; [apply bland_goes; reflexivity..| |eapply string_goes; exact S].
  pose proof (number_bland t' N) as B. destruct (number_head t' N) as (c & r & -> & _). now apply bland_goes.
Qed.

Lemma open_goes (c : ascii) n d b : c = "["%char \/ c = "{"%char -> indent_byte (mkI Outside n d b) c = (mkI Outside true (deeper n d) true, opens n d ++ String c "").
Proof. intros [-> | ->]; destruct n; unfold opens, deeper; rewrite <- ?line_eq; reflexivity. Qed.
Lemma close_empty (c : ascii) d b : c = "]"%char \/ c = "}"%char -> indent_byte (mkI Outside true d b) c = (mkI Outside false d true, String c "").
Proof. intros [-> | ->]; reflexivity. Qed.
Lemma close_full (c : ascii) d b : c = "]"%char \/ c = "}"%char -> indent_byte (mkI Outside false (S d) b) c = (mkI Outside false d true, line d ++ String c "").
Proof. intros [-> | ->]; unfold indent_byte; replace (line d) with (indent_line d) by apply line_eq; reflexivity. Qed.
Lemma comma_goes d b : indent_byte (mkI Outside false d b) "," = (mkI Outside false d true, "," ++ line d).
Proof. unfold indent_byte. replace (line d) with (indent_line d) by apply line_eq. reflexivity. Qed.
Lemma colon_goes d b : indent_byte (mkI Outside false d b) ":" = (mkI Outside false d true, ": ").
Proof. reflexivity. Qed.

Lemma concat_more sep (x : string) l : l <> [] -> String.concat sep (x :: l) = x ++ sep ++ String.concat sep l.
Proof. destruct l; [congruence|reflexivity]. Qed.

Definition laid (V : string -> doc -> Prop) : Prop :=
  forall t d, V t d -> forall n k b, goes (mkI Outside n k b) t (mkI Outside false (deeper n k) true) (opens n k ++ pretty (deeper n k) d).
Lemma elements_goes V : laid V -> forall t l, elements V t l -> l <> [] /\ forall n k b, n = true \/ k <> O ->
  goes (mkI Outside n k b) t (mkI Outside false (deeper n k) true) (opens n k ++ String.concat ("," ++ line (deeper n k)) (map (pretty (deeper n k)) l)).
Proof.
  intros LV t l E. induction E as [a t b d A T B|a t b d r l A T B E [NE IH]]; (split; [discriminate|]); intros n k g H.
  - cbn [map String.concat]. change (goes (mkI Outside n k g) (a ++ t ++ b) (mkI Outside false (deeper n k) true) ("" ++ opens n k ++ pretty (deeper n k) d)).
    eapply goes_app; [apply blank_goes; auto; tauto|]. rewrite <- (app_str_nil_r (opens n k ++ pretty (deeper n k) d)). eapply goes_app; [apply LV; auto|].
    apply blank_goes; auto. destruct H as [-> |H]; [cbn; auto|]. destruct n; cbn; auto.
  - cbn [map]. rewrite concat_more by (destruct l; [congruence|discriminate]).
    change (goes (mkI Outside n k g) (a ++ t ++ b ++ "," ++ r) (mkI Outside false (deeper n k) true)
      ("" ++ opens n k ++ pretty (deeper n k) d ++ ("," ++ line (deeper n k)) ++ String.concat ("," ++ line (deeper n k)) (map (pretty (deeper n k)) l))).
    assert (K : deeper n k <> O) by (destruct H as [-> |H]; [discriminate|destruct n; cbn; auto]).
    eapply goes_app; [apply blank_goes; auto; tauto|]. rewrite <- (app_str_assoc (opens n k)). eapply goes_app; [apply LV; auto|].
    change (goes (mkI Outside false (deeper n k) true) (b ++ String "," r) (mkI Outside false (deeper n k) true)
      ("" ++ ("," ++ line (deeper n k)) ++ "" ++ String.concat ("," ++ line (deeper n k)) (map (pretty (deeper n k)) l))).
    eapply goes_app; [apply blank_goes; auto|]. eapply goes_cons; [apply comma_goes|]. exact (IH false (deeper n k) true (or_intror K)).
Qed.
Definition member_line (k : nat) (x : string * string * doc) : string := fst (fst x) ++ ": " ++ pretty k (snd x).
Lemma member_goes (V : string -> doc -> Prop) a k0 v b c t e d n k g : laid V -> blank a -> string_says k0 v -> blank b -> blank c -> V t d -> blank e -> n = true \/ k <> O ->
  goes (mkI Outside n k g) (a ++ k0 ++ b ++ ":" ++ c ++ t ++ e) (mkI Outside false (deeper n k) true) (opens n k ++ member_line (deeper n k) (k0, v, d)).
Proof.
  intros LV A S B C T E H. assert (K : deeper n k <> O) by (destruct H as [-> |H]; [discriminate|destruct n; cbn; auto]). unfold member_line. cbn [fst snd].
  change (opens n k ++ k0 ++ ": " ++ pretty (deeper n k) d) with ("" ++ opens n k ++ k0 ++ ": " ++ pretty (deeper n k) d).
  eapply goes_app; [apply blank_goes; auto; tauto|]. rewrite <- (app_str_assoc (opens n k)). eapply goes_app; [eapply string_goes; eauto|].
  change (": " ++ pretty (deeper n k) d) with ("" ++ ": " ++ "" ++ pretty (deeper n k) d).
  eapply goes_app; [apply blank_goes; auto|]. eapply goes_cons; [apply colon_goes|].
  eapply goes_app; [apply blank_goes; auto|]. rewrite <- (app_str_nil_r (pretty (deeper n k) d)). eapply goes_app; [exact (LV t d T false (deeper n k) true)|].
  apply blank_goes; auto.
Qed.
Lemma members_goes V : laid V -> forall t m, members V t m -> m <> [] /\ forall n k b, n = true \/ k <> O ->
  goes (mkI Outside n k b) t (mkI Outside false (deeper n k) true) (opens n k ++ String.concat ("," ++ line (deeper n k)) (map (member_line (deeper n k)) m)).
Proof.
  intros LV t m M. induction M as [a k0 v b c t e d A S B C T E|a k0 v b c t e d r m A S B C T E M [NE IH]]; (split; [discriminate|]); intros n k g H.
  - cbn [map String.concat]. eapply member_goes; eauto.
  - assert (K : deeper n k <> O) by (destruct H as [-> |H]; [discriminate|destruct n; cbn; auto]).
    cbn [map]. rewrite concat_more by (destruct m; [congruence|discriminate]).
    replace (a ++ k0 ++ b ++ ":" ++ c ++ t ++ e ++ "," ++ r) with ((a ++ k0 ++ b ++ ":" ++ c ++ t ++ e) ++ "," ++ r) by (flat; reflexivity).
    rewrite <- (app_str_assoc (opens n k)). eapply goes_app; [eapply member_goes; eauto|].
    change (("," ++ line (deeper n k)) ++ String.concat ("," ++ line (deeper n k)) (map (member_line (deeper n k)) m))
      with (("," ++ line (deeper n k)) ++ "" ++ String.concat ("," ++ line (deeper n k)) (map (member_line (deeper n k)) m)).
    eapply goes_cons; [apply comma_goes|]. exact (IH false (deeper n k) true (or_intror K)).
Qed.
Lemma pretty_arr k l : l <> [] -> pretty k (Arr l) = "[" ++ line (S k) ++ String.concat ("," ++ line (S k)) (map (pretty (S k)) l) ++ line k ++ "]".
Proof. destruct l; [congruence|reflexivity]. Qed.
Lemma pretty_obj k m : m <> [] -> pretty k (Obj m) = "{" ++ line (S k) ++ String.concat ("," ++ line (S k)) (map (member_line (S k)) m) ++ line k ++ "}".
Proof. destruct m; [congruence|reflexivity]. Qed.

Theorem spells_goes : forall n, laid (spells n).
Proof.
  induction n as [|n IH]; intros t d; cbn [spells].
  - intros (j & S & ->) m k b. cbn [pretty]. eapply scalar_goes; eauto.
  - intros L m k b. destruct L as [t' j S|b' B|t' l E|b' B|t' l E].
    + cbn [pretty]. eapply scalar_goes; eauto.
    + cbn [pretty]. replace (opens m k ++ "[]") with ((opens m k ++ "[") ++ "" ++ "]") by (flat; reflexivity). eapply goes_cons; [apply open_goes; auto|].
      eapply goes_app; [apply blank_goes; auto|]. eapply (goes_cons _ _ _ "]"); [apply close_empty; auto|]. apply goes_nil.
    + destruct (elements_goes _ IH _ _ E) as [NE G]. rewrite pretty_arr by auto.
      replace (opens m k ++ "[" ++ line (S (deeper m k)) ++ String.concat ("," ++ line (S (deeper m k))) (map (pretty (S (deeper m k))) l) ++ line (deeper m k) ++ "]")
        with ((opens m k ++ "[") ++ (line (S (deeper m k)) ++ String.concat ("," ++ line (S (deeper m k))) (map (pretty (S (deeper m k))) l)) ++ (line (deeper m k) ++ "]") ++ "") by (rewrite app_str_nil_r; rewrite !app_str_assoc; reflexivity).
      eapply goes_cons; [apply open_goes; auto|]. eapply goes_app; [exact (G true (deeper m k) true (or_introl eq_refl))|].
      eapply goes_cons; [apply close_full; auto|]. apply goes_nil.
    + cbn [pretty]. replace (opens m k ++ "{}") with ((opens m k ++ "{") ++ "" ++ "}") by (flat; reflexivity). eapply goes_cons; [apply open_goes; auto|].
      eapply goes_app; [apply blank_goes; auto|]. eapply (goes_cons _ _ _ "}"); [apply close_empty; auto|]. apply goes_nil.
    + destruct (members_goes _ IH _ _ E) as [NE G]. rewrite pretty_obj by auto.
      replace (opens m k ++ "{" ++ line (S (deeper m k)) ++ String.concat ("," ++ line (S (deeper m k))) (map (member_line (S (deeper m k))) l) ++ line (deeper m k) ++ "}")
        with ((opens m k ++ "{") ++ (line (S (deeper m k)) ++ String.concat ("," ++ line (S (deeper m k))) (map (member_line (S (deeper m k))) l)) ++ (line (deeper m k) ++ "}") ++ "") by (rewrite app_str_nil_r; rewrite !app_str_assoc; reflexivity).
      eapply goes_cons; [apply open_goes; auto|]. eapply goes_app; [exact (G true (deeper m k) true (or_introl eq_refl))|].
      eapply goes_cons; [apply close_full; auto|]. apply goes_nil.
Qed.

(** ---------- what is written is the same document ---------- *)

Lemma blank_tabs n : blank (tabs n).
Proof. induction n; [exact blank_nil|]. apply blank_cons; [reflexivity|auto]. Qed.
Lemma blank_line n : blank (line n).
Proof. apply blank_cons; [reflexivity|apply blank_tabs]. Qed.
Lemma elements_pretty (V : string -> doc -> Prop) k : (forall t d, V t d -> V (pretty k d) d) -> forall t l, elements V t l -> l <> [] /\ forall tail, blank tail ->
  elements V (line k ++ String.concat ("," ++ line k) (map (pretty k) l) ++ tail) l.
Proof.
  intros PV t l E. induction E as [a t b d A T B|a t b d r l A T B E [NE IH]]; (split; [discriminate|]); intros tail TB.
  - cbn [map String.concat]. apply el_one; auto using blank_line. eauto.
  - cbn [map]. rewrite concat_more by (destruct l; [congruence|discriminate]).
    replace (line k ++ (pretty k d ++ ("," ++ line k) ++ String.concat ("," ++ line k) (map (pretty k) l)) ++ tail)
      with (line k ++ pretty k d ++ "" ++ "," ++ (line k ++ String.concat ("," ++ line k) (map (pretty k) l) ++ tail)) by (rewrite !app_str_assoc; reflexivity).
    apply el_more; auto using blank_line, blank_nil. eauto.
Qed.
Lemma members_pretty (V : string -> doc -> Prop) k : (forall t d, V t d -> V (pretty k d) d) -> forall t m, members V t m -> m <> [] /\ forall tail, blank tail ->
  members V (line k ++ String.concat ("," ++ line k) (map (member_line k) m) ++ tail) m.
Proof.
  intros PV t m M. induction M as [a k0 v b c t e d A S B C T E|a k0 v b c t e d r m A S B C T E M [NE IH]]; (split; [discriminate|]); intros tail TB.
  - cbn [map String.concat]. unfold member_line. cbn [fst snd].
    replace (line k ++ (k0 ++ ": " ++ pretty k d) ++ tail) with (line k ++ k0 ++ "" ++ ":" ++ " " ++ pretty k d ++ tail) by (rewrite !app_str_assoc; reflexivity).
    apply (me_one V (line k) k0 v "" " "); auto using blank_line, blank_nil. apply blank_cons; [reflexivity|exact blank_nil]. eauto.
  - cbn [map]. rewrite concat_more by (destruct m; [congruence|discriminate]). unfold member_line at 1. cbn [fst snd].
    replace (line k ++ ((k0 ++ ": " ++ pretty k d) ++ ("," ++ line k) ++ String.concat ("," ++ line k) (map (member_line k) m)) ++ tail)
      with (line k ++ k0 ++ "" ++ ":" ++ " " ++ pretty k d ++ "" ++ "," ++ (line k ++ String.concat ("," ++ line k) (map (member_line k) m) ++ tail)) by (rewrite !app_str_assoc; reflexivity).
    apply (me_more V (line k) k0 v "" " "); auto using blank_line, blank_nil. apply blank_cons; [reflexivity|exact blank_nil]. eauto.
Qed.
Theorem spells_pretty : forall n k t d, spells n t d -> spells n (pretty k d) d.
Proof.
  induction n as [|n IH]; intros k t d; cbn [spells].
  - intros (j & S & ->). cbn [pretty]. eauto.
  - intros L. destruct L as [t' j S|b' B|t' l E|b' B|t' l E].
    + now constructor.
    + exact (ly_no_elements (spells n) "" blank_nil).
    + destruct (elements_pretty _ (S k) (IH (S k)) _ _ E) as [NE G]. rewrite pretty_arr by auto. pose proof (ly_elements (spells n) _ _ (G (line k) (blank_line k))) as X.
      rewrite !app_str_assoc in X. exact X.
    + exact (ly_no_members (spells n) "" blank_nil).
    + destruct (members_pretty _ (S k) (IH (S k)) _ _ E) as [NE G]. rewrite pretty_obj by auto. pose proof (ly_members (spells n) _ _ (G (line k) (blank_line k))) as X.
      rewrite !app_str_assoc in X. exact X.
Qed.
