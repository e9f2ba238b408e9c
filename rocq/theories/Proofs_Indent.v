(** Proofs_Indent.v -- the decoder reads exactly the JSON texts of Spec_Indent, and json.Indent
    lays them out. *)
From Coq Require Import ZArith NArith List String Ascii Bool Lia.
From Verif Require Import Base Model_Lex Model_Json Model_Indent Spec_Foreign Spec_Indent Proofs_Lib Proofs_Lex Proofs_JsonText Proofs_Says Props_JsonGrammar.
Import ListNotations.
Local Open Scope list_scope.
Local Open Scope string_scope.

(** ---------- white space ---------- *)

Lemma blank_nil : blank "".
Proof. constructor. Qed.
Lemma space_byte c : json_space c = true <-> In (N_of_ascii c) [32; 9; 10; 13]%N.
Proof.
  split; destruct c as [[] [] [] [] [] [] [] []]; vm_compute; intros H; try reflexivity; try discriminate H; auto; repeat (destruct H as [H|H]; [discriminate H|]); contradiction.
Qed.
Lemma blank_cons c b : json_space c = true -> blank b -> blank (String c b).
Proof. intros C B. constructor; auto. now apply space_byte. Qed.
Lemma blank_inv c b : blank (String c b) -> json_space c = true /\ blank b.
Proof. intros B. inversion B; subst. split; auto. now apply space_byte. Qed.
Lemma blank_app a b : blank a -> blank b -> blank (a ++ b).
Proof. induction a as [|c a IH]; cbn [append]; [auto|]. intros A B. apply blank_inv in A as [A1 A2]. apply blank_cons; auto. Qed.
Lemma skip_blank b s : blank b -> skip (b ++ s) = skip s.
Proof. induction b as [|c b IH]; cbn [append]; [auto|]. intros B. apply blank_inv in B as [B1 B2]. unfold skip. cbn [trim_left]. rewrite B1. now apply IH. Qed.
Lemma skip_split s : exists b, s = b ++ skip s /\ blank b.
Proof.
  induction s as [|c s (b & E & B)]; [exists ""; split; [reflexivity|exact blank_nil]|]. unfold skip. cbn [trim_left]. destruct (json_space c) eqn:J.
  - exists (String c b). split; [cbn [append]; f_equal; exact E|now apply blank_cons].
  - exists "". split; [reflexivity|exact blank_nil].
Qed.
Lemma skip_all b : blank b -> skip b = "".
Proof. intros B. rewrite <- (app_str_nil_r b), skip_blank by auto. reflexivity. Qed.
Lemma blank_no_number b s : blank b -> no_number s -> no_number (b ++ s).
Proof.
  destruct b as [|c b]; [auto|]. intros B _. apply blank_inv in B as [B _]. cbn [append no_number]. revert B.
  destruct c as [[] [] [] [] [] [] [] []]; vm_compute; intros E; try discriminate E; auto.
Qed.

(** ---------- scalars ---------- *)

(** The first byte of a value *)
Definition head_byte (c : ascii) : Prop := json_space c = false /\ Ascii.eqb c "]" = false /\ Ascii.eqb c "}" = false /\ Ascii.eqb c "," = false /\ Ascii.eqb c ":" = false.
Lemma dec_head c : is_dec c = true \/ c = "-"%char -> head_byte c /\ Ascii.eqb c dquote = false /\ Ascii.eqb c "[" = false /\ Ascii.eqb c "{" = false /\ Ascii.eqb c "t" = false /\ Ascii.eqb c "f" = false /\ Ascii.eqb c "n" = false.
Proof.
  intros [H| ->]; [|vm_compute; auto 12]. revert H. destruct c as [[] [] [] [] [] [] [] []]; vm_compute; intros E; try discriminate E; auto 12.
Qed.
Lemma number_head t : number_text t -> exists c r, t = String c r /\ (is_dec c = true \/ c = "-"%char).
Proof.
  intros (sg & a & f & e & S & A & _ & _ & ->). cbn [In] in S. destruct S as [<-|[<-|[]]]; [|cbn [append]; eauto].
  destruct A as [|c s D _ _]; cbn [append]; eauto.
Qed.
Lemma prefix_head p c r d q : p = String d q -> Ascii.eqb c d = false -> String.prefix p (String c r) = false.
Proof. intros -> E. cbn [String.prefix]. destruct (ascii_dec d c) as [->|]; [|reflexivity]. now rewrite Ascii.eqb_refl in E. Qed.
Lemma prefix_split p s : String.prefix p s = true -> s = p ++ drop (String.length p) s.
Proof.
  revert s. induction p as [|c p IH]; intros s; [reflexivity|]. destruct s as [|d s]; [discriminate|]. cbn [String.prefix String.length drop append].
  destruct (ascii_dec c d) as [->|]; [|discriminate]. intros H. f_equal. now apply IH.
Qed.

Lemma scalar_head t j : scalar t j -> exists c r, t = String c r /\ head_byte c.
Proof.
  intros [| | |t' N|t' v (s & -> & _)]; try (eexists _, _; split; [reflexivity|vm_compute; auto 8]).
  destruct (number_head t' N) as (c & r & -> & H). exists c, r. split; [reflexivity|]. now apply dec_head.
Qed.
Lemma scalar_read n t j rest : scalar t j -> no_number rest -> json_value n (t ++ rest) = Some (j, rest).
Proof.
  intros [| | |t' N|t' v (s & -> & S)] NR.
  - destruct n, rest; reflexivity.
  - destruct n, rest; reflexivity.
  - destruct n, rest; reflexivity.
  - pose proof (C50_JSON_numbers_complete t' rest N NR) as J. destruct (number_head t' N) as (c & r & -> & H). apply dec_head in H as (_ & A & B & C & D & E & F).
    cbn [append] in *. rewrite json_value_other by auto. rewrite !(prefix_head _ c _ _ _ eq_refl) by auto. rewrite J. reflexivity.
  - cbn [append]. pose proof (says_read s v rest S) as J. destruct n; cbn [json_value]; rewrite Ascii.eqb_refl, J; reflexivity.
Qed.
Lemma value_scalar n c r j rest : Ascii.eqb c "[" = false -> Ascii.eqb c "{" = false -> json_value n (String c r) = Some (j, rest) ->
  exists t, String c r = t ++ rest /\ scalar t j.
Proof.
  intros A B H. destruct (Ascii.eqb c dquote) eqn:Q.
  - apply Ascii.eqb_eq in Q. subst c. assert (exists x, json_string (S (String.length r)) r = Some (x, rest) /\ j = JStr x) as (x & J & ->).
    { destruct n; cbn [json_value] in H; rewrite Ascii.eqb_refl in H; destruct (json_string _ r) as [[x r']|]; try discriminate; injection H as <- <-; eauto. }
    apply json_string_sound in J as (t & -> & S). exists (String dquote t). split; [reflexivity|]. apply sc_string. exists t. auto.
  - rewrite json_value_other in H by auto.
    destruct (String.prefix "true" _) eqn:P1; [apply prefix_split in P1; injection H as <- H; rewrite <- H; exists "true"; split; [exact P1|constructor]|].
    destruct (String.prefix "false" _) eqn:P2; [apply prefix_split in P2; injection H as <- H; rewrite <- H; exists "false"; split; [exact P2|constructor]|].
    destruct (String.prefix "null" _) eqn:P3; [apply prefix_split in P3; injection H as <- H; rewrite <- H; exists "null"; split; [exact P3|constructor]|].
    destruct (json_number _) as [[t r']|] eqn:J; [|discriminate]. injection H as <- <-. apply C50_JSON_numbers_sound in J as [E N]. exists t. split; [exact E|now constructor].
Qed.

(** ---------- documents ---------- *)

Fixpoint put_all (m : list (string * string * doc)) (acc : list (string * json)) : list (string * json) :=
  match m with [] => acc | (_, v, d) :: r => put_all r (jput v (value_of d) acc) end.
Lemma value_of_obj m : value_of (Obj m) = JObj (put_all m []).
Proof. reflexivity. Qed.

Lemma elements_head (V : string -> doc -> Prop) t l : (forall t d, V t d -> exists c r, t = String c r /\ head_byte c) -> elements V t l ->
  exists b c r, t = b ++ String c r /\ blank b /\ head_byte c /\ l <> [].
Proof.
  intros H E. destruct E as [a t b d A T B|a t b d r l A T B _]; destruct (H t d T) as (c & s & -> & Hc);
    eexists a, c, _; (split; [|split; [exact A|split; [exact Hc|discriminate]]]); cbn [append]; reflexivity.
Qed.
Lemma members_head (V : string -> doc -> Prop) t m : members V t m -> exists b r, t = b ++ String dquote r /\ blank b /\ m <> [].
Proof.
  intros E. destruct E as [a k v b c t e d A (s & -> & _) B C T Ee|a k v b c t e d r m A (s & -> & _) B C T Ee _];
    eexists a, _; (split; [|split; [exact A|discriminate]]); cbn [append]; reflexivity.
Qed.
Lemma spells_head n t d : spells n t d -> exists c r, t = String c r /\ head_byte c.
Proof.
  destruct n; cbn [spells].
  - intros (j & S & _). eapply scalar_head; eauto.
  - intros [t' j S|b _|t' l _|b _|t' m _]; [eapply scalar_head; eauto|..]; (eexists _, _; split; [reflexivity|vm_compute; auto 8]).
Qed.
Lemma head_skip c r : head_byte c -> skip (String c r) = String c r.
Proof. intros [H _]. now apply skip_not. Qed.
Lemma spells_skip n t d s : spells n t d -> skip (t ++ s) = t ++ s.
Proof. intros S. destruct (spells_head n t d S) as (c & r & -> & H). cbn [append]. now apply head_skip. Qed.

(** The decoder reads documents. *)
Lemma elements_read n : (forall t d rest, spells n t d -> no_number rest -> json_value n (t ++ rest) = Some (value_of d, rest)) ->
  forall t l, elements (spells n) t l -> forall f rest, lt (String.length t) f -> json_elements (json_value n) f (t ++ "]" ++ rest) = Some (map value_of l, rest).
Proof.
  intros R t l E. induction E as [a t b d A T B|a t b d r l A T B E IH]; intros f rest F; (destruct f as [|f]; [lia|]); cbn [json_elements].
  - rewrite !app_str_assoc, skip_blank, (spells_skip _ _ _ _ T) by auto. rewrite (R _ _ _ T) by (apply blank_no_number; [auto|vm_compute; auto]).
    rewrite skip_blank by auto. reflexivity.
  - rewrite !length_app_str in F. cbn [String.length] in F. rewrite !app_str_assoc, skip_blank, (spells_skip _ _ _ _ T) by auto. rewrite (R _ _ _ T) by (apply blank_no_number; [auto|vm_compute; auto]).
    rewrite skip_blank by auto. change (skip ("," ++ r ++ "]" ++ rest)) with (String "," (r ++ "]" ++ rest)).
    change (Ascii.eqb "," "]") with false. change (Ascii.eqb "," ",") with true. cbn iota. rewrite IH by lia. reflexivity.
Qed.
Lemma members_read n : (forall t d rest, spells n t d -> no_number rest -> json_value n (t ++ rest) = Some (value_of d, rest)) ->
  forall t m, members (spells n) t m -> forall f rest acc, lt (String.length t) f -> json_members (json_value n) f (t ++ "}" ++ rest) acc = Some (put_all m acc, rest).
Proof.
  intros R t m E. induction E as [a k v b c t e d A (s & -> & S) B C T E|a k v b c t e d r m A (s & -> & S) B C T E M IH]; intros f rest acc F; (destruct f as [|f]; [lia|]); cbn [json_members].
  - rewrite !app_str_assoc, skip_blank by auto. cbn [append]. rewrite (skip_not dquote) by reflexivity. rewrite Ascii.eqb_refl. cbn [negb].
    rewrite says_read with (v := v) by auto. rewrite skip_blank by auto. rewrite skip_not by reflexivity. rewrite Ascii.eqb_refl. cbn [negb].
    rewrite skip_blank, (spells_skip _ _ _ _ T) by auto. rewrite (R _ _ _ T) by (apply blank_no_number; [auto|vm_compute; auto]).
    rewrite skip_blank by auto. rewrite skip_not by reflexivity. reflexivity.
  - rewrite !length_app_str in F. cbn [String.length append] in F.
    rewrite !app_str_assoc, skip_blank by auto. cbn [append]. rewrite (skip_not dquote) by reflexivity. rewrite Ascii.eqb_refl. cbn [negb].
    rewrite says_read with (v := v) by auto. rewrite skip_blank by auto. rewrite skip_not by reflexivity. rewrite Ascii.eqb_refl. cbn [negb].
    rewrite skip_blank, (spells_skip _ _ _ _ T) by auto. rewrite (R _ _ _ T) by (apply blank_no_number; [auto|vm_compute; auto]).
    rewrite skip_blank by auto. rewrite skip_not by reflexivity. change (Ascii.eqb "," "}") with false. change (Ascii.eqb "," ",") with true. cbn iota.
    apply (IH f rest (jput v (value_of d) acc)). lia.
Qed.
Theorem spells_read : forall n t d rest, spells n t d -> no_number rest -> json_value n (t ++ rest) = Some (value_of d, rest).
Proof.
  induction n as [|n IH]; intros t d rest; cbn [spells].
  - intros (j & S & ->) N. cbn [value_of]. now apply scalar_read.
  - intros L N. destruct L as [t' j S|b B|t' l E|b B|t' m M].
    + cbn [value_of]. now apply scalar_read.
    + cbn [append json_value]. change (Ascii.eqb "[" dquote) with false. change (Ascii.eqb "[" "[") with true. cbn iota.
      unfold json_array. rewrite !app_str_assoc, skip_blank by auto. cbn [append]. rewrite skip_not by reflexivity. reflexivity.
    + cbn [append json_value]. change (Ascii.eqb "[" dquote) with false. change (Ascii.eqb "[" "[") with true. cbn iota.
      unfold json_array. rewrite !app_str_assoc.
      destruct (elements_head _ _ _ (spells_head n) E) as (b & c & r & -> & B & H & _). rewrite app_str_assoc, skip_blank by auto. cbn [append]. rewrite head_skip by auto.
      destruct H as (_ & H & _). rewrite H. change (b ++ String c (r ++ String "]" rest)) with (b ++ String c r ++ "]" ++ rest). rewrite <- app_str_assoc.
      rewrite (elements_read n IH _ _ E); [reflexivity|]. rewrite !length_app_str. cbn [String.length]. lia.
    + cbn [append json_value]. change (Ascii.eqb "{" dquote) with false. change (Ascii.eqb "{" "[") with false. change (Ascii.eqb "{" "{") with true. cbn iota.
      unfold json_object. rewrite !app_str_assoc, skip_blank by auto. cbn [append]. rewrite skip_not by reflexivity. reflexivity.
    + cbn [append json_value]. change (Ascii.eqb "{" dquote) with false. change (Ascii.eqb "{" "[") with false. change (Ascii.eqb "{" "{") with true. cbn iota.
      unfold json_object. rewrite !app_str_assoc.
      destruct (members_head _ _ _ M) as (b & r & -> & B & _). rewrite app_str_assoc, skip_blank by auto. cbn [append]. rewrite skip_not by reflexivity.
      change (Ascii.eqb dquote "}") with false. cbn iota. change (b ++ String dquote (r ++ String "}" rest)) with (b ++ String dquote r ++ "}" ++ rest). rewrite <- app_str_assoc.
      rewrite (members_read n IH _ _ M); [now rewrite value_of_obj|]. rewrite !length_app_str. cbn [String.length]. lia.
Qed.

(** What the decoder reads is a document. *)
Lemma elements_sound n : (forall s j rest, json_value n s = Some (j, rest) -> exists t d, s = t ++ rest /\ spells n t d /\ value_of d = j) ->
  forall f s js rest, json_elements (json_value n) f s = Some (js, rest) -> exists t l, s = t ++ "]" ++ rest /\ elements (spells n) t l /\ map value_of l = js.
Proof.
  intros IH. induction f as [|f IF]; intros s js rest H; [discriminate|]. cbn [json_elements] in H.
  destruct (json_value n (skip s)) as [[j r]|] eqn:J; [|discriminate]. destruct (IH _ _ _ J) as (t & d & E & S & V).
  destruct (skip_split s) as (a & Es & A). destruct (skip_split r) as (b & Er & B). destruct (skip r) as [|c r'] eqn:K; [discriminate|].
  destruct (Ascii.eqb c "]") eqn:C1.
  - apply Ascii.eqb_eq in C1. subst c. injection H as <- <-. exists (a ++ t ++ b), [d]. rewrite Es, E, Er. rewrite !app_str_assoc. split; [reflexivity|]. split; [now constructor|]. cbn [map]. now rewrite V.
  - destruct (Ascii.eqb c ",") eqn:C2; [|discriminate]. apply Ascii.eqb_eq in C2. subst c.
    destruct (json_elements (json_value n) f r') as [[js' r'']|] eqn:J'; [|discriminate]. injection H as <- <-. destruct (IF _ _ _ J') as (t' & l & E' & L & V').
    exists (a ++ t ++ b ++ "," ++ t'), (d :: l). rewrite Es, E, Er, E'. rewrite !app_str_assoc. cbn [append]. split; [reflexivity|]. split; [now constructor|]. cbn [map]. now rewrite V, V'.
Qed.
Ltac flat := repeat first [rewrite app_str_assoc | progress cbn [append]].
Lemma members_sound n : (forall s j rest, json_value n s = Some (j, rest) -> exists t d, s = t ++ rest /\ spells n t d /\ value_of d = j) ->
  forall f s acc js rest, json_members (json_value n) f s acc = Some (js, rest) -> exists t m, s = t ++ "}" ++ rest /\ members (spells n) t m /\ put_all m acc = js.
Proof.
  intros IH. induction f as [|f IF]; intros s acc js rest H; [discriminate|]. cbn [json_members] in H.
  destruct (skip_split s) as (a & Es & A). destruct (skip s) as [|q r] eqn:K; [discriminate|]. destruct (Ascii.eqb q dquote) eqn:Q; [|discriminate]. apply Ascii.eqb_eq in Q. subst q. cbn [negb] in H.
  destruct (json_string (S (String.length r)) r) as [[k r1]|] eqn:J; [|discriminate]. apply json_string_sound in J as (kt & -> & KS).
  destruct (skip_split r1) as (b & Er & B). destruct (skip r1) as [|c r2]; [discriminate|]. destruct (Ascii.eqb c ":") eqn:C; [|discriminate]. apply Ascii.eqb_eq in C. subst c. cbn [negb] in H.
  destruct (json_value n (skip r2)) as [[j r3]|] eqn:J; [|discriminate]. destruct (IH _ _ _ J) as (t & d & E & S & V).
  destruct (skip_split r2) as (c & Er2 & C). destruct (skip_split r3) as (e & Er3 & Eb). destruct (skip r3) as [|x r4] eqn:K3; [discriminate|].
  assert (KK : string_says (String dquote kt) k) by (exists kt; auto).
  destruct (Ascii.eqb x "}") eqn:C1.
  - apply Ascii.eqb_eq in C1. subst x. injection H as <- <-. exists (a ++ String dquote kt ++ b ++ ":" ++ c ++ t ++ e), [(String dquote kt, k, d)].
    rewrite Es, Er, Er2, E, Er3. flat. split; [reflexivity|]. split; [apply (me_one _ a (String dquote kt) k b c t e d); auto|]. cbn [put_all]. now rewrite V.
  - destruct (Ascii.eqb x ",") eqn:C2; [|discriminate]. apply Ascii.eqb_eq in C2. subst x.
    destruct (IF _ _ _ _ H) as (t' & m & E' & M & V').
    exists (a ++ String dquote kt ++ b ++ ":" ++ c ++ t ++ e ++ "," ++ t'), ((String dquote kt, k, d) :: m).
    rewrite Es, Er, Er2, E, Er3, E'. flat. split; [reflexivity|].
    split; [apply (me_more _ a (String dquote kt) k b c t e d t' m); auto|]. cbn [put_all]. now rewrite V.
Qed.
Theorem spells_sound : forall n s j rest, json_value n s = Some (j, rest) -> exists t d, s = t ++ rest /\ spells n t d /\ value_of d = j.
Proof.
  induction n as [|n IH]; intros s j rest H; (destruct s as [|c r]; [discriminate|]).
  - destruct (Ascii.eqb c "[") eqn:A. { apply Ascii.eqb_eq in A. subst c. discriminate H. }
    destruct (Ascii.eqb c "{") eqn:B. { apply Ascii.eqb_eq in B. subst c. discriminate H. }
    destruct (value_scalar 0 c r j rest A B H) as (t & E & S). exists t, (Scalar t j). cbn [spells value_of]. eauto.
  - destruct (Ascii.eqb c "[") eqn:A; [apply Ascii.eqb_eq in A; subst c|destruct (Ascii.eqb c "{") eqn:B; [apply Ascii.eqb_eq in B; subst c|]].
    + cbn [json_value] in H. change (Ascii.eqb "[" dquote) with false in H. change (Ascii.eqb "[" "[") with true in H. cbn iota in H.
      unfold json_array in H. destruct (skip_split r) as (b & Er & B). destruct (skip r) as [|c r'] eqn:K; [discriminate|]. destruct (Ascii.eqb c "]") eqn:C.
      * apply Ascii.eqb_eq in C. subst c. injection H as <- <-. exists ("[" ++ b ++ "]"), (Arr []). rewrite Er. cbn [append]. rewrite app_str_assoc. split; [reflexivity|].
        split; [now apply (ly_no_elements (spells n) b)|reflexivity].
      * destruct (json_elements _ _ r) as [[js r1]|] eqn:J; [|discriminate]. injection H as <- <-. destruct (elements_sound n IH _ _ _ _ J) as (t & l & E & L & V).
        exists ("[" ++ t ++ "]"), (Arr l). rewrite E. cbn [append]. rewrite app_str_assoc. split; [reflexivity|]. split; [now apply (ly_elements (spells n) t l)|]. cbn [value_of]. now rewrite V.
    + cbn [json_value] in H. change (Ascii.eqb "{" dquote) with false in H. change (Ascii.eqb "{" "[") with false in H. change (Ascii.eqb "{" "{") with true in H. cbn iota in H.
      unfold json_object in H. destruct (skip_split r) as (b & Er & B). destruct (skip r) as [|c r'] eqn:K; [discriminate|]. destruct (Ascii.eqb c "}") eqn:C.
      * apply Ascii.eqb_eq in C. subst c. injection H as <- <-. exists ("{" ++ b ++ "}"), (Obj []). rewrite Er. cbn [append]. rewrite app_str_assoc. split; [reflexivity|].
        split; [now apply (ly_no_members (spells n) b)|reflexivity].
      * destruct (json_members _ _ r []) as [[js r1]|] eqn:J; [|discriminate]. injection H as <- <-. destruct (members_sound n IH _ _ _ _ _ J) as (t & m & E & L & V).
        exists ("{" ++ t ++ "}"), (Obj m). rewrite E. cbn [append]. rewrite app_str_assoc. split; [reflexivity|]. split; [now apply (ly_members (spells n) t m)|]. now rewrite value_of_obj, V.
    + destruct (value_scalar (S n) c r j rest A B H) as (t & E & S). exists t, (Scalar t j). cbn [spells value_of]. split; [exact E|]. split; [now constructor|reflexivity].
Qed.
