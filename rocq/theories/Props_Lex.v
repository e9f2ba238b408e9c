(** Props_Lex.v -- C27 and C28: literals. *)
From Coq Require Import ZArith NArith List String Ascii Bool Lia.
From Verif Require Import Base Model_Names Model_Table Model_Heap Model_Lex Model_Parser Model_Print Proofs_Lex Proofs_Num Spec_Text.
Import ListNotations.
Local Open Scope string_scope.
Local Open Scope Z_scope.

(** ---------- C27 ---------- *)

(** A literal in a column of an integer type, followed by something else, is read as its
    value if the value fits the type, and is an error otherwise. *)
Theorem C27_literal_exact p ct k s v rest h :
  int_kind ct = Some k -> literal k s v -> separated rest ->
  (fits k v -> get_value p ct (s ++ rest) h = Ok (h, VInt k v, rest)) /\
  (~ fits k v -> get_value p ct (s ++ rest) h = Err).
Proof.
  intros K L S. unfold get_value. rewrite K. rewrite (get_int_literal k s v rest L S). unfold pure.
  split; intros F.
  - apply range_fits in F. rewrite F. reflexivity.
  - destruct (in_range k v) eqn:R; [apply range_fits in R; easy|reflexivity].
Qed.

(** Whatever is accepted in such a column is a literal, its value, and fits. *)
Theorem C27_accepts_only_literals p ct k s x rest h h' :
  int_kind ct = Some k -> get_value p ct s h = Ok (h', x, rest) ->
  h' = h /\ exists v text, x = VInt k v /\ fits k v /\ s = (text ++ rest)%string /\ literal k text v.
Proof.
  intros K. unfold get_value. rewrite K. unfold pure.
  assert (S : match get_int k s with Ok (VInt _ _, _) => True | Ok _ => False | _ => True end).
  { rewrite get_int_kind. destruct (scan_kind k s) as [[a b]|]; [|exact I]. now destruct (parse_kind k a). }
  destruct (get_int k s) as [[v b]| |] eqn:G; cbn; [|discriminate..]. intros [= <- <- <-]. split; [reflexivity|].
  destruct v; try contradiction.
  apply get_int_inv in G as (-> & R & text & -> & L). exists z, text. split; [reflexivity|].
  split; [now apply range_fits|]. auto.
Qed.

(** Printed and read back, every integer is the same; the type of the column is the type of the cell. *)
Theorem C27_print_parse ip p ct k z rest h hp :
  int_kind ct = Some k -> fits k z -> separated rest ->
  exists text, cell_text (Quote ip) (QuoteRune ip) hp ct (VInt k z) = Some (Ok text) /\
    get_value p ct (text ++ rest) h = Ok (h, VInt k z, rest).
Proof.
  intros K F S. exists (dec_of z). split.
  - unfold cell_text. rewrite K. cbn. destruct k; reflexivity.
  - unfold get_value. rewrite K. unfold pure. rewrite get_int_dec_of; [reflexivity|now apply range_fits|exact S].
Qed.

Example C27_nonvacuous :
  int_kind "int8" = Some KInt8 /\ literal KInt8 "-128" (-128) /\ fits KInt8 (-128) /\ separated " 3" /\
  literal KUint16 "0xFFff" 65535 /\ fits KUint16 65535 /\ ~ fits KInt16 65535 /\
  get_value 0%nat "uint16" "0xFFff 5" [] = Ok ([], VInt KUint16 65535, " 5") /\
  get_value 0%nat "int16" "0xFFff 5" [] = Err.
Proof.
  split; [reflexivity|]. split; [cbn; apply (lit_minus "128" 128); apply val_numeral; [lia|reflexivity|easy]|].
  split; [unfold fits; cbn; lia|]. split; [apply separated_word; reflexivity|].
  split; [cbn; apply (lit_0x "0x" "FFff"); [now left|]; apply val_numeral; [lia|reflexivity|easy]|].
  split; [unfold fits; cbn; lia|]. split; [unfold fits; cbn; lia|]. split; reflexivity.
Qed.

(** ---------- C28 ---------- *)

(** The quoted form of any byte string, followed by anything, is read as that string, whatever
    table of printable characters strconv uses. *)
Theorem C28_string_round_trip ip p s rest h hp :
  exists text, cell_text (Quote ip) (QuoteRune ip) hp "string" (VString s) = Some (Ok text) /\
    get_value p "string" (text ++ rest) h = Ok (h, VString s, rest).
Proof.
  exists (Quote ip s). split; [reflexivity|].
  unfold get_value. change (int_kind "string") with (@None ikind). cbn match. change (String.eqb "string" "string") with true. cbn match.
  unfold pure. rewrite scan_Quote. cbn [of_opt rbind]. rewrite Unquote_Quote. reflexivity.
Qed.

(** Likewise every valid rune. *)
Theorem C28_rune_round_trip ip p r rest h hp : valid_rune r = true ->
  exists text, cell_text (Quote ip) (QuoteRune ip) hp "rune" (VInt KInt32 r) = Some (Ok text) /\
    get_value p "rune" (text ++ rest) h = Ok (h, VInt KInt32 r, rest).
Proof.
  intros V. exists (QuoteRune ip r). split; [reflexivity|].
  destruct (scan_QuoteRune ip r rest V) as (x & E & P & N).
  assert (G : get_value p "rune" (QuoteRune ip r ++ rest) h =
              pure h (let! (text, rest) := of_opt (scan_rune (QuoteRune ip r ++ rest)) in
                if Nat.ltb (String.length text) 1 then Err
                else let! r := of_opt (parseRune text) in Ok (r, rest)) (VInt KInt32)) by reflexivity.
  rewrite G, E. cbn [of_opt rbind]. destruct x as [|c x]; [easy|].
  change (Nat.ltb (String.length (String c x)) 1) with false. cbn match. rewrite P. reflexivity.
Qed.

(** The quoted forms stay on one line. *)
Theorem C28_one_line ip s r : has nl (Quote ip s) = false /\ has nl (QuoteRune ip r) = false.
Proof. split; [apply Quote_no_nl|apply QuoteRune_no_nl]. Qed.

(** A rune that is not a valid code point (for instance a surrogate) is printed as U+FFFD, so
    it does not survive. *)
Theorem C28_invalid_rune_refuted : exists ip r text,
  in_range KInt32 r = true /\
  cell_text (Quote ip) (QuoteRune ip) [] "rune" (VInt KInt32 r) = Some (Ok text) /\
  get_value 0%nat "rune" text [] = Ok ([], VInt KInt32 65533, "") /\ r <> 65533.
Proof.
  exists (fun _ => false), 55296, (QuoteRune (fun _ => false) 55296).
  split; [reflexivity|]. split; [reflexivity|]. split; [vm_compute; reflexivity|easy].
Qed.

Example C28_nonvacuous :
  valid_rune 128512 = true /\
  Quote (fun _ => true) (bytes [34; 92; 10; 200; 226; 130; 172]) = String dquote "\""\\\n\xc8€""" /\
  get_value 0%nat "string" (String dquote "\""\\\n\xc8€"" tail") [] = Ok ([], VString (bytes [34; 92; 10; 200; 226; 130; 172]), " tail").
Proof. repeat split; vm_compute; reflexivity. Qed.

(** Axioms used by any theorem of this file. *)
Definition all_Props_Lex :=
  (@C27_literal_exact,
   @C27_accepts_only_literals,
   @C27_print_parse,
   @C28_string_round_trip,
   @C28_rune_round_trip,
   @C28_one_line,
   @C28_invalid_rune_refuted).
Print Assumptions all_Props_Lex.
