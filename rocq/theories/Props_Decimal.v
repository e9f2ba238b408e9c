(** Props_Decimal.v -- C61: a decimal in a float column is read as the float next to it. *)
From Coq Require Import ZArith NArith List String Ascii Bool SpecFloat Lia.
From Verif Require Import Base Model_Names Model_Table Model_Heap Model_TableSet Model_Lex Model_Float Model_Time Model_Parser Spec Spec_Heap Spec_TableSet Spec_Text Spec_Decimal Spec_Document Spec_Grammar Spec_Refuse.
From Verif Require Import Proofs_Lib Proofs_Table Proofs_Heap Proofs_TableSet Proofs_Lex Proofs_Num Proofs_Parser Proofs_Lines Proofs_Block Proofs_Float Proofs_Closest Proofs_Decimal Proofs_Document Proofs_Token Proofs_Grammar Proofs_Refuse
  Props_Parser Props_Grammar Props_Refuse.
Import ListNotations.
Local Open Scope string_scope.
Local Open Scope list_scope.

(** The column types of floats, with the bits of the format and the value of a float *)
Inductive float_type : string -> Z -> Z -> (spec_float -> value) -> Prop :=
  | ft_32 : float_type "float32" 24 128 VFloat32
  | ft_64 : float_type "float64" 53 1024 VFloat64.
Lemma float_fmt ct prec emax mk : float_type ct prec emax mk -> exists F, fmt_ok F /\ f_prec F = prec /\ f_emax F = emax.
Proof. intros []; [exists F32|exists F64]; split; auto; [now left|now right]. Qed.

(** C61.  Every number that is not too big has one float that it is rounded to ... *)
Theorem C61_one_float : forall ct prec emax mk neg n d, float_type ct prec emax mk -> (0 <= n)%Z -> (0 < d)%Z -> ~ too_big prec emax n d ->
  exists f, rounds prec emax neg n d f /\ forall g, rounds prec emax neg n d g -> g = f.
Proof.
  intros ct prec emax mk neg n d T N D B. destruct (float_fmt _ _ _ _ T) as (F & FO & <- & <-). destruct (nearest F neg n d) as [f|] eqn:E.
  - exists f. split; [now apply (nearest_rounds F FO)|]. intros g G. apply (nearest_rounds F FO) in G; auto. congruence.
  - apply (nearest_none F FO) in E; auto. contradiction.
Qed.
(** ... and every decimal text is a number. *)
Theorem C61_number : forall tok neg x k y, decimal_of tok neg x k y -> exists n d, (0 <= n)%Z /\ ten_times x (y - k) n d.
Proof.
  intros tok neg x k y D. eexists _, _. split; [|apply ten_times_some]. destruct (decimal_bounds tok neg x k y D) as (X & _).
  apply Z.mul_nonneg_nonneg; [apply X|apply Z.pow_nonneg; lia].
Qed.

Definition newline1 : string := String nl "".
Fixpoint one_below_another (ls : list string) : string := match ls with [] => "" | l :: r => (l ++ newline1 ++ one_below_another r)%string end.
(** The text of a table with one column *)
Definition column_text (name col ct : string) (toks : list string) : string := one_below_another (("[" ++ name ++ "]")%string :: col :: ct :: toks).
Definition number_rounds (prec emax : Z) (tok : string) (f : spec_float) : Prop := exists neg n d, number_text tok neg n d /\ rounds prec emax neg n d f.

Lemma decimal_graphic tok neg n d : number_text tok neg n d -> tok <> "" /\ all_c graphic tok = true.
Proof.
  intros (x & k & y & D & _). apply decimal_of_decimal in D as (s & m & e & S & M & E & ->). split.
  { destruct (decimal_first s m e S M) as (c & r & -> & _). discriminate. }
  assert (DG : forall a, every is_dec a -> all_c graphic a = true).
  { intros a A. apply every_all in A. revert A. apply all_c_impl. intros c C. apply word_graphic. unfold is_word. rewrite C. now rewrite orb_true_r. }
  rewrite !all_c_app. apply andb_true_iff. split; [destruct S as [->|[-> | ->]]; reflexivity|]. apply andb_true_iff. split.
  - destruct M as [a [_ A]|a f [_ A] B|f [_ B]]; rewrite ?all_c_app, ?DG by assumption; reflexivity || (cbn [append all_c]; rewrite DG by assumption; reflexivity).
  - destruct E as [|e s0 a [-> | ->] S0 [_ A]]; [reflexivity|..]; rewrite !all_c_app, (DG a) by assumption; destruct S0 as [->|[-> | ->]]; reflexivity.
Qed.
Lemma significant_graphic ls : Forall (fun l => l <> "" /\ all_c graphic l = true /\ comment l = false) ls -> significant (lines (one_below_another ls)) = ls ++ [""].
Proof.
  intros F. assert (L : lines (one_below_another ls) = ls ++ [""]).
  { induction F as [|l ls (N & G & C) F IH]; [reflexivity|]. cbn [one_below_another app]. rewrite <- IH. apply lines_line. apply graphic_word; auto. }
  rewrite L. clear L. induction F as [|l ls (N & G & C) F IH]; [reflexivity|]. cbn [app significant]. destruct (ls ++ [""]) as [|x xs] eqn:E; [destruct ls; discriminate|].
  rewrite <- E in *. rewrite TrimSpace_graphic, C by assumption. now rewrite IH.
Qed.
Lemma plain_graphic n : plain_name n -> n <> "" /\ all_c graphic n = true /\ comment n = false.
Proof.
  intros P. pose proof (name_line_graphic n (plain_ascii _ P)) as G. rewrite !all_c_app in G. apply andb_true_iff in G as [_ G]. apply andb_true_iff in G as [G _].
  pose proof (plain_ascii _ P) as A. destruct n as [|c r]; [destruct A|]. split; [discriminate|]. split; [exact G|]. destruct A as [A _]. unfold comment. apply Ascii.eqb_neq. intros ->. discriminate.
Qed.
Lemma number_graphic tok neg n d : number_text tok neg n d -> tok <> "" /\ all_c graphic tok = true /\ comment tok = false.
Proof.
  intros N. destruct (decimal_graphic _ _ _ _ N) as [E G]. split; [exact E|]. split; [exact G|]. destruct N as (x & k & y & D & _). apply decimal_of_decimal in D as (s & m & e & S & M & _ & ->).
  destruct (decimal_first s m e S M) as (c & r & -> & C & _). unfold comment. apply Ascii.eqb_neq. intros ->. destruct C as [C|[C|[C|C]]]; discriminate.
Qed.
Lemma graphic_a_word w : w <> "" -> all_c graphic w = true -> a_word w.
Proof. intros N G. split; [exact N|]. apply every_all. revert G. apply all_c_impl. intros c C. destruct (graphic_facts c C) as (_ & -> & _). reflexivity. Qed.

(** C61.  A table with a column of floats: every number in the column is read as the float
    that it is rounded to, whatever else is in the column. *)
Theorem C61_read : forall ct prec emax mk name col toks fs h, float_type ct prec emax mk -> wf_heap h -> plain_name name -> plain_name col ->
  Forall2 (number_rounds prec emax) toks fs ->
  exists h' p t, NewTableFromString (column_text name col ct toks) h = (h', Ok (Some p)) /\ nth_error h' p = Some t /\
    tname t = name /\ cnames t = [col] /\ ctypes t = [ct] /\ rows t = map (fun f => [mk f]) fs.
Proof.
  intros ct prec emax mk name col toks fs h T W Pn Pc F.
  set (d := mkTD name [col] [ct] (map (fun f => [Value (mk f)]) fs) false).
  assert (CT : In ct all_types) by (destruct T; apply str_in_In; reflexivity).
  assert (CW : forall tok f, number_rounds prec emax tok f -> cell_written ct tok (Value (mk f))) by (intros tok f (neg & n & dd & N & R); destruct T; econstructor; eauto).
  assert (G : Forall (fun l => l <> "" /\ all_c graphic l = true /\ comment l = false) (("[" ++ name ++ "]")%string :: col :: ct :: toks)).
  { apply Forall_cons; [|apply Forall_cons; [|apply Forall_cons]].
    - split; [discriminate|]. split; [now apply name_line_graphic, plain_ascii|reflexivity].
    - now apply plain_graphic.
    - destruct T; repeat split; discriminate.
    - clear - F. induction F as [|tok f toks fs (neg & n & d & N & _) F IH]; constructor; eauto using number_graphic. }
  assert (SW : set_written (significant (lines (column_text name col ct toks))) None [d]).
  { unfold column_text. rewrite significant_graphic by exact G. cbn [app]. apply (sw_table d (col :: ct :: toks) [""] None []); [| |right; eauto|apply sw_blank, sw_end].
    - split; [exact Pn|]. split; [apply Forall_cons; [apply Pc|apply Forall_nil]|]. split; [repeat constructor; intros []|]. split; [apply Forall_cons; [exact CT|apply Forall_nil]|reflexivity].
    - inversion G as [|? ? _ G1]; subst. inversion G1 as [|? ? (A1 & A2 & _) G2]; subst. inversion G2 as [|? ? (B1 & B2 & _) G3]; subst.
      apply bw_table; [reflexivity|apply words_one; now apply graphic_a_word..|]. cbn [td_types td_rows d]. clear - F CW.
      induction F as [|tok f toks fs N F IH]; constructor; auto. apply rw_one. now apply CW. }
  destruct (C60_one_table _ None d h W SW) as (h' & o & E & (p & t & -> & _ & N & _ & Tn & Cn & Ct & _ & R) & _). exists h', p, t. split; [exact E|]. split; [exact N|]. split; [exact Tn|]. split; [exact Cn|]. split; [exact Ct|].
  cbn [td_rows d] in R. clear - R. revert R. generalize (rows t). induction fs as [|f fs IH]; intros rs R; inversion R as [|? r ? rs' R1 R2]; subst; [reflexivity|].
  cbn [map]. f_equal; [|now apply IH]. inversion R1 as [|? v ? ? V R3]; subst. inversion R3; subst. cbn in V. now subst.
Qed.
(** C61.  A number that is too big is an error. *)
Theorem C61_too_big : forall ct prec emax mk name col toks fs tok neg n d more h, float_type ct prec emax mk -> wf_heap h -> plain_name name -> plain_name col ->
  Forall2 (number_rounds prec emax) toks fs -> number_text tok neg n d -> too_big prec emax n d -> Forall (fun l => exists neg n d, number_text l neg n d) more ->
  snd (NewTableFromString (column_text name col ct (toks ++ tok :: more)) h) = Err.
Proof.
  intros ct prec emax mk name col toks fs tok neg n d more h T W Pn Pc F N B M. apply C62_one_table; [exact W|].
  assert (CT : In ct all_types) by (destruct T; apply str_in_In; reflexivity).
  assert (CW : forall tok f, number_rounds prec emax tok f -> cell_written ct tok (Value (mk f))) by (intros tok0 f (neg0 & n0 & dd & N0 & R); destruct T; econstructor; eauto).
  assert (G : Forall (fun l => l <> "" /\ all_c graphic l = true /\ comment l = false) (("[" ++ name ++ "]")%string :: col :: ct :: toks ++ tok :: more)).
  { apply Forall_cons; [|apply Forall_cons; [|apply Forall_cons]].
    - split; [discriminate|]. split; [now apply name_line_graphic, plain_ascii|reflexivity].
    - now apply plain_graphic.
    - destruct T; repeat split; discriminate.
    - apply Forall_app. split; [|constructor; [eauto using number_graphic|]].
      + clear - F. induction F as [|tok f toks fs (neg & n & d & N & _) F IH]; constructor; eauto using number_graphic.
      + eapply Forall_impl; [|exact M]. intros a (? & ? & ? & A). eauto using number_graphic. }
  unfold column_text. rewrite significant_graphic by exact G. inversion G as [|? ? _ G1]; subst. inversion G1 as [|? ? (A1 & A2 & _) G2]; subst. inversion G2 as [|? ? (B1 & B2 & _) G3]; subst.
  cbn [app]. replace (col :: ct :: (toks ++ tok :: more) ++ [""]) with ((col :: ct :: toks ++ [tok]) ++ more ++ [""]) by (cbn [app]; rewrite <- !app_assoc; reflexivity).
  apply sx_body; [exact Pn|intros []|]. 
  apply (bx_row [col] col [ct] ct toks (map (fun f => [Value (mk f)]) fs) tok); [now apply words_one, graphic_a_word| | |now apply words_one, graphic_a_word| |reflexivity| |].
  - apply Forall_cons; [apply Pc|apply Forall_nil].
  - repeat constructor. intros [].
  - apply Forall_cons; [exact CT|apply Forall_nil].
  - clear - F CW. induction F as [|t f toks fs N F IH]; constructor; auto. apply rw_one. now apply CW.
  - rewrite <- (app_str_nil_r tok). apply rx_cell; [|now left]. destruct T; [eapply cx_float32|eapply cx_float64]; eauto.
Qed.
(** A tie (to the even neighbour), a number below the smallest float, one that is nearly too
    big, one that is too big, a negative zero *)
Lemma numeral_is a v : a <> "" -> all_c is_dec a = true -> dec_val a = v -> numeral 10 a v.
Proof. intros N A E. destruct (digits_numeral a N A) as (x & X). destruct (Proofs_FloatText.numeral_dec a x X) as (Y & _). rewrite E in Y. now subst. Qed.
Ltac num := apply numeral_is; [discriminate|vm_compute; reflexivity..].
Lemma r_tie : number_rounds 53 1024 "9007199254740993" (S754_finite false 4503599627370496 1).
Proof.
  exists false, 9007199254740993%Z, 1%Z. split; [|apply (nearest_rounds F64 (or_intror eq_refl)); [discriminate|reflexivity|vm_compute; reflexivity]].
  exists 9007199254740993%Z, 0%Z, 0%Z. split; [|split; [split; reflexivity|left; reflexivity]]. exists "", "9007199254740993", "". split; [reflexivity|]. split; [right; auto|]. split; [|constructor]. apply mag_int. num.
Qed.
Lemma r_tiny : number_rounds 53 1024 "-2.5e-400" (S754_zero true).
Proof.
  exists true, 25%Z, (10 ^ 401)%Z. split; [|apply (nearest_rounds F64 (or_intror eq_refl)); [discriminate|reflexivity|vm_compute; reflexivity]].
  exists 25%Z, 1%Z, (-400)%Z. split; [|split; [split; [reflexivity|vm_compute; reflexivity]|left; reflexivity]]. exists "-", "2.5", "e-400". split; [reflexivity|]. split; [left; auto|].
  split; [apply (mag_point "2" "5" 25); num|]. apply (pow_minus "e" "400" 400); [auto|num].
Qed.
Lemma r_tenth : number_rounds 53 1024 ".1" (S754_finite false 7205759403792794 (-56)).
Proof.
  exists false, 1%Z, 10%Z. split; [|apply (nearest_rounds F64 (or_intror eq_refl)); [discriminate|reflexivity|vm_compute; reflexivity]].
  exists 1%Z, 1%Z, 0%Z. split; [|split; [split; reflexivity|left; reflexivity]]. exists "", ".1", "". split; [reflexivity|]. split; [right; auto|]. split; [|constructor].
  apply (mag_point "" "1" 1). num.
Qed.
Lemma n_big : number_text "+17976931348623159E+292" false (17976931348623159 * 10 ^ 292) 1.
Proof.
  exists 17976931348623159%Z, 0%Z, 292%Z. split; [|split; [split; [reflexivity|vm_compute; reflexivity]|left; reflexivity]]. exists "+", "17976931348623159", "E+292". split; [reflexivity|]. split; [right; auto|].
  split; [apply mag_int; num|]. apply (pow_plus "E" "+" "292" 292); [auto|auto|num].
Qed.
Example C61_nonvacuous : Forall2 (number_rounds 53 1024) ["9007199254740993"; "-2.5e-400"; ".1"] [S754_finite false 4503599627370496 1; S754_zero true; S754_finite false 7205759403792794 (-56)]
  /\ tied 53 1024 (S754_finite false 4503599627370496 1) 9007199254740993 1
  /\ too_big 53 1024 (17976931348623159 * 10 ^ 292) 1 /\ ~ too_big 53 1024 (17976931348623158 * 10 ^ 292) 1
  /\ snd (NewTableFromString (column_text "t" "x" "float64" [".1"; "+17976931348623159E+292"; ".1"]) []) = Err
  /\ exists h' o, NewTableFromString (column_text "t" "x" "float64" ["9007199254740993"; "-2.5e-400"; ".1"]) [] = (h', Ok o).
Proof.
  assert (F : Forall2 (number_rounds 53 1024) ["9007199254740993"; "-2.5e-400"; ".1"] [S754_finite false 4503599627370496 1; S754_zero true; S754_finite false 7205759403792794 (-56)]).
  { apply Forall2_cons; [exact r_tie|]. apply Forall2_cons; [exact r_tiny|]. apply Forall2_cons; [exact r_tenth|]. apply Forall2_nil. }
  assert (B : too_big 53 1024 (17976931348623159 * 10 ^ 292) 1) by (vm_compute; discriminate).
  assert (PT : plain_name "t") by pn. assert (PX : plain_name "x") by pn.
  split; [exact F|]. split; [|split; [exact B|split; [intros X; vm_compute in X; now apply X|split]]].
  - exists 9007199254740992%Z, 1%Z, (S754_finite false 4503599627370497 1), 9007199254740994%Z, 1%Z. repeat split; try discriminate.
  - destruct r_tenth as (neg & n & d & N & R).
    apply (C61_too_big "float64" 53 1024 VFloat64 "t" "x" [".1"] [S754_finite false 7205759403792794 (-56)] "+17976931348623159E+292" false (17976931348623159 * 10 ^ 292) 1 [".1"] [] ft_64 wf_heap_nil PT PX); [|exact n_big|exact B|].
    + apply Forall2_cons; [exact r_tenth|apply Forall2_nil].
    + apply Forall_cons; [eauto|apply Forall_nil].
  - destruct (C61_read "float64" 53 1024 VFloat64 "t" "x" _ _ [] ft_64 wf_heap_nil PT PX F) as (h' & p & t & E & _). eauto.
Qed.

(** Axioms used by any theorem of this file. *)
Definition all_Props_Decimal :=
  (@C61_one_float,
   @C61_number,
   @C61_read,
   @C61_too_big).
Print Assumptions all_Props_Decimal.
