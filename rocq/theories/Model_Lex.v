(** Model_Lex.v -- characters, UTF-8, string and rune literals, number literals and the
    regular expressions of parser.go.

    A call [re.FindStringIndex(remaining)] followed by [remaining[i:j]] and [remaining[j:]]
    is modelled by a scanner that returns the matched text and the rest of the line.  The
    scanners follow Go's leftmost-first matching of each pattern; the pattern is quoted
    in the comment of each scanner. *)
From Coq Require Import ZArith NArith List String Ascii Bool.
From Verif Require Import Base.
Import ListNotations.
Local Open Scope string_scope.

(** ---------- bytes ---------- *)

Definition code (c : ascii) : Z := Z.of_N (N_of_ascii c).
Definition chr (z : Z) : ascii := ascii_of_N (Z.to_N z).
Definition between (lo hi : Z) (c : ascii) : bool := ((lo <=? code c) && (code c <=? hi))%Z.
Definition one_of (l : string) (c : ascii) : bool := existsb (Ascii.eqb c) (list_ascii_of_string l).

Definition nl : ascii := chr 10.
Definition dquote : ascii := chr 34.
Definition squote : ascii := chr 39.
Definition bslash : ascii := chr 92.

Definition is_dec (c : ascii) : bool := between 48 57 c.
Definition is_bin (c : ascii) : bool := between 48 49 c.
Definition is_oct (c : ascii) : bool := between 48 55 c.
Definition is_hex (c : ascii) : bool := between 48 57 c || between 65 70 c || between 97 102 c.
(** [a-zA-Z_] and [a-zA-Z0-9_] *)
Definition is_alpha_ (c : ascii) : bool := between 65 90 c || between 97 122 c || Ascii.eqb c "_".
Definition is_word (c : ascii) : bool := is_alpha_ c || is_dec c.
(** \s of Go regular expressions: [\t\n\f\r ] *)
Definition is_white (c : ascii) : bool := one_of (String (chr 9) (String (chr 10) (String (chr 12) (String (chr 13) " ")))) c.

(** s[n:] *)
Fixpoint drop (n : nat) (s : string) : string :=
  match n, s with
  | O, _ => s
  | S n', String _ r => drop n' r
  | S _, EmptyString => EmptyString
  end.

(** strings.TrimLeft(s, cutset) for an ASCII cutset *)
Fixpoint trim_left (cut : ascii -> bool) (s : string) : string :=
  match s with
  | EmptyString => EmptyString
  | String c r => if cut c then trim_left cut r else s
  end.

(** Longest prefix of characters in a class, and the rest: [class]* *)
Fixpoint span (f : ascii -> bool) (s : string) : string * string :=
  match s with
  | EmptyString => ("", "")
  | String c r => if f c then let '(a, b) := span f r in (String c a, b) else ("", s)
  end.

Fixpoint srev_app (s acc : string) : string :=
  match s with EmptyString => acc | String c r => srev_app r (String c acc) end.
Definition srev (s : string) : string := srev_app s "".

(** ---------- white space of package strings ---------- *)

(** The UTF-8 encodings of the runes for which unicode.IsSpace is true:
    \t \n \v \f \r space U+0085 U+00A0 U+1680 U+2000-U+200A U+2028 U+2029 U+202F U+205F
    U+3000.  strings.TrimSpace and strings.Fields work on runes; a rune is a space
    exactly when its bytes are one of these. *)
Definition bytes (l : list Z) : string := string_of_list_ascii (map chr l).
Definition space_encodings : list string :=
  map bytes
  [ [9]; [10]; [11]; [12]; [13]; [32]; [194; 133]; [194; 160]; [225; 154; 128];
    [226; 128; 128]; [226; 128; 129]; [226; 128; 130]; [226; 128; 131]; [226; 128; 132];
    [226; 128; 133]; [226; 128; 134]; [226; 128; 135]; [226; 128; 136]; [226; 128; 137];
    [226; 128; 138]; [226; 128; 168]; [226; 128; 169]; [226; 128; 175]; [226; 129; 159];
    [227; 128; 128] ]%Z.

(** The text after a leading space (one rune), if the string starts with one. *)
Definition strip_space (encs : list string) (s : string) : option string :=
  fold_right (fun e r => if String.prefix e s then Some (drop (String.length e) s) else r) None encs.

Fixpoint trim_spaces (fuel : nat) (encs : list string) (s : string) : string :=
  match fuel with
  | O => s
  | S k => match strip_space encs s with Some r => trim_spaces k encs r | None => s end
  end.

(** strings.TrimSpace *)
Definition TrimSpace (s : string) : string :=
  let l := trim_spaces (String.length s) space_encodings s in
  srev (trim_spaces (String.length l) (map srev space_encodings) (srev l)).

(** strings.Fields: the maximal runs of non-space runes. *)
Definition field_add (c : ascii) (fs : bool * list string) : bool * list string :=
  match fs with
  | (true, w :: ws) => (true, String c w :: ws)
  | (_, ws) => (true, String c "" :: ws)
  end.
Fixpoint fields_from (fuel : nat) (s : string) : bool * list string :=
  match fuel with
  | O => (false, [])
  | S k =>
      match s with
      | EmptyString => (false, [])
      | String c r =>
          match strip_space space_encodings s with
          | Some r' => (false, snd (fields_from k r'))
          | None => field_add c (fields_from k r)
          end
      end
  end.
Definition Fields (s : string) : list string := snd (fields_from (S (String.length s)) s).

(** whiteRegexp.Split(s, -1) with whiteRegexp = "\s+", parser.go:160 *)
Fixpoint split_white (s : string) : list string :=
  match s with
  | EmptyString => [""]
  | String c r =>
      if is_white c then
        match r with
        | String c' _ => if is_white c' then split_white r else "" :: split_white r
        | EmptyString => ["" ; ""]
        end
      else match split_white r with
           | w :: ws => String c w :: ws
           | [] => [String c ""]
           end
  end.

(** The lines that bufio.Reader.ReadString('\n') returns, without their final '\n'
    (TrimSpace would remove it).  The last one comes with io.EOF. *)
Fixpoint lines (s : string) : list string :=
  match s with
  | EmptyString => [""]
  | String c r =>
      if Ascii.eqb c nl then "" :: lines r
      else match lines r with l :: ls => String c l :: ls | [] => [String c ""] end
  end.

(** ---------- UTF-8 (package unicode/utf8) ---------- *)

Definition RuneError : Z := 65533.
(** utf8.ValidRune *)
Definition valid_rune (r : Z) : bool :=
  (((0 <=? r) && (r <? 55296)) || ((57343 <? r) && (r <=? 1114111)))%Z.

Definition cont (c : ascii) : bool := between 128 191 c.

(** utf8.DecodeRuneInString: the first rune and its width; (RuneError, 1) for bytes that
    are not UTF-8.  None for the empty string. *)
Definition decode (s : string) : option (Z * nat) :=
  match s with
  | EmptyString => None
  | String c0 r0 =>
      Some
      (let bad := (RuneError, 1) in
       if (code c0 <? 128)%Z then (code c0, 1)
       else if between 194 223 c0 then
         match r0 with
         | String c1 _ => if cont c1 then (((code c0 - 192) * 64 + (code c1 - 128))%Z, 2) else bad
         | _ => bad
         end
       else if between 224 239 c0 then
         match r0 with
         | String c1 (String c2 _) =>
             if between (if (code c0 =? 224)%Z then 160 else 128) (if (code c0 =? 237)%Z then 159 else 191) c1 && cont c2
             then (((code c0 - 224) * 4096 + (code c1 - 128) * 64 + (code c2 - 128))%Z, 3) else bad
         | _ => bad
         end
       else if between 240 244 c0 then
         match r0 with
         | String c1 (String c2 (String c3 _)) =>
             if between (if (code c0 =? 240)%Z then 144 else 128) (if (code c0 =? 244)%Z then 143 else 191) c1
                && cont c2 && cont c3
             then (((code c0 - 240) * 262144 + (code c1 - 128) * 4096 + (code c2 - 128) * 64 + (code c3 - 128))%Z, 4)
             else bad
         | _ => bad
         end
       else bad)
  end.

(** utf8.EncodeRune: invalid runes are written as RuneError *)
Definition encode (r0 : Z) : string :=
  let r := if valid_rune r0 then r0 else RuneError in
  if (r <? 128)%Z then bytes [r]
  else if (r <? 2048)%Z then bytes [192 + r / 64; 128 + r mod 64]%Z
  else if (r <? 65536)%Z then bytes [224 + r / 4096; 128 + r / 64 mod 64; 128 + r mod 64]%Z
  else bytes [240 + r / 262144; 128 + r / 4096 mod 64; 128 + r / 64 mod 64; 128 + r mod 64]%Z.

(** utf8.RuneCountInString *)
Fixpoint rune_count_from (fuel : nat) (s : string) : nat :=
  match fuel with
  | O => 0
  | S k => match decode s with Some (_, w) => S (rune_count_from k (drop w s)) | None => 0 end
  end.
Definition rune_count (s : string) : nat := rune_count_from (String.length s) s.

(** ---------- strconv.Quote, QuoteRune, Unquote, UnquoteChar ---------- *)

(** strconv.IsPrint.  The Unicode table beyond ASCII is the parameter [ip]. *)
Definition is_print (ip : Z -> bool) (r : Z) : bool :=
  if (r <? 128)%Z then ((32 <=? r) && (r <=? 126))%Z else ip r.

Definition hexdigit (z : Z) : ascii := if (z <? 10)%Z then chr (48 + z) else chr (87 + z).
(** n hexadecimal digits of z, most significant first *)
Fixpoint hex (n : nat) (z : Z) : string :=
  match n with
  | O => ""
  | S k => String (hexdigit (z / 16 ^ Z.of_nat k mod 16)) (hex k z)
  end.

Definition escape_letter (r : Z) : option ascii :=
  match r with
  | 7 => Some "a" | 8 => Some "b" | 12 => Some "f" | 10 => Some "n"
  | 13 => Some "r" | 9 => Some "t" | 11 => Some "v" | _ => None
  end%Z%char.

(** strconv.appendEscapedRune *)
Definition escape_rune (ip : Z -> bool) (quote : ascii) (r : Z) : string :=
  if (r =? code quote)%Z || (r =? 92)%Z then String bslash (String (chr r) "")
  else if is_print ip r then encode r
  else match escape_letter r with
       | Some c => String bslash (String c "")
       | None =>
           if (r <? 32)%Z || (r =? 127)%Z then String bslash (String "x" (hex 2 r))
           else let r := if valid_rune r then r else RuneError in
                if (r <? 65536)%Z then String bslash (String "u" (hex 4 r))
                else String bslash (String "U" (hex 8 r))
       end.

Fixpoint quote_from (fuel : nat) (ip : Z -> bool) (quote : ascii) (s : string) : string :=
  match fuel with
  | O => ""
  | S k =>
      match decode s with
      | None => ""
      | Some (r, w) =>
          (if Nat.eqb w 1 && (r =? RuneError)%Z
           then String bslash (String "x" (hex 2 (match s with String c _ => code c | _ => 0%Z end)))
           else escape_rune ip quote r)
          ++ quote_from k ip quote (drop w s)
      end
  end.
(** strconv.Quote *)
Definition Quote (ip : Z -> bool) (s : string) : string :=
  String dquote (quote_from (String.length s) ip dquote s ++ String dquote "").
(** strconv.QuoteRune *)
Definition QuoteRune (ip : Z -> bool) (r : Z) : string :=
  String squote (escape_rune ip squote (if valid_rune r then r else RuneError) ++ String squote "").

(** strconv.unhex *)
Definition unhex (c : ascii) : option Z :=
  if between 48 57 c then Some (code c - 48)%Z
  else if between 97 102 c then Some (code c - 97 + 10)%Z
  else if between 65 70 c then Some (code c - 65 + 10)%Z
  else None.
Fixpoint unhex_n (n : nat) (v : Z) (s : string) : option (Z * string) :=
  match n with
  | O => Some (v, s)
  | S k => match s with
           | EmptyString => None
           | String c r => match unhex c with Some x => unhex_n k (v * 16 + x)%Z r | None => None end
           end
  end.
Definition unescape_letter (c : ascii) : option Z :=
  if Ascii.eqb c "a" then Some 7%Z else if Ascii.eqb c "b" then Some 8%Z
  else if Ascii.eqb c "f" then Some 12%Z else if Ascii.eqb c "n" then Some 10%Z
  else if Ascii.eqb c "r" then Some 13%Z else if Ascii.eqb c "t" then Some 9%Z
  else if Ascii.eqb c "v" then Some 11%Z else None.
Definition octal (c : ascii) : option Z := if is_oct c then Some (code c - 48)%Z else None.

(** strconv.UnquoteChar (as of Go 1.16, where \u and \U must name a valid rune): value,
    whether it is a multibyte rune, and the tail. *)
Definition UnquoteChar (quote : ascii) (s : string) : option (Z * bool * string) :=
  match s with
  | EmptyString => None
  | String c r =>
      if Ascii.eqb c quote then None
      else if (128 <=? code c)%Z then
        match decode s with Some (v, w) => Some (v, true, drop w s) | None => None end
      else if negb (Ascii.eqb c bslash) then Some (code c, false, r)
      else
        match r with
        | EmptyString => None
        | String c r =>
            match unescape_letter c with
            | Some v => Some (v, false, r)
            | None =>
                if Ascii.eqb c "x" then
                  match unhex_n 2 0 r with Some (v, r) => Some (v, false, r) | None => None end
                else if Ascii.eqb c "u" then
                  match unhex_n 4 0 r with Some (v, r) => if valid_rune v then Some (v, true, r) else None | None => None end
                else if Ascii.eqb c "U" then
                  match unhex_n 8 0 r with Some (v, r) => if valid_rune v then Some (v, true, r) else None | None => None end
                else match octal c with
                | Some x =>
                    match r with
                    | String c1 (String c2 r) =>
                        match octal c1, octal c2 with
                        | Some y, Some z =>
                            let v := (x * 64 + y * 8 + z)%Z in
                            if (255 <? v)%Z then None else Some (v, false, r)
                        | _, _ => None
                        end
                    | _ => None
                    end
                | None =>
                    if Ascii.eqb c bslash then Some (92%Z, false, r)
                    else if Ascii.eqb c squote || Ascii.eqb c dquote then
                      if Ascii.eqb c quote then Some (code c, false, r) else None
                    else None
                end
            end
        end
  end.

Fixpoint unquote_from (fuel : nat) (quote : ascii) (s : string) : option string :=
  match s with
  | EmptyString => Some ""
  | _ =>
      match fuel with
      | O => None
      | S k =>
          match UnquoteChar quote s with
          | None => None
          | Some (c, multibyte, tail) =>
              match unquote_from k quote tail with
              | None => None
              | Some rest =>
                  Some ((if (c <? 128)%Z || negb multibyte then bytes [c] else encode c) ++ rest)
              end
          end
      end
  end.

(** The last byte and what precedes it. *)
Fixpoint split_last (s : string) : option (string * ascii) :=
  match s with
  | EmptyString => None
  | String c r => match split_last r with
                  | None => Some ("", c)
                  | Some (a, l) => Some (String c a, l)
                  end
  end.
Definition has (c : ascii) (s : string) : bool := existsb (Ascii.eqb c) (list_ascii_of_string s).

(** strconv.Unquote of a double-quoted literal (the only kind that stringRegexp matches).
    The fast path for literals without escapes gives the same result. *)
Definition Unquote (s : string) : option string :=
  match s with
  | String q r =>
      if Ascii.eqb q dquote then
        match split_last r with
        | Some (body, q') =>
            if Ascii.eqb q' dquote then
              if has nl body then None else unquote_from (String.length body) dquote body
            else None
        | None => None
        end
      else None
  | EmptyString => None
  end.

(** ---------- the regular expressions of parser.go ---------- *)

(** stringRegexp (here, and in the other comments, between double quotes, with a double
    quote written twice and a space between a star and a parenthesis) "^""(?:[^""\\]*(?:\\.)?)*""", parser.go:118 *)
Fixpoint string_body (s : string) : option (string * string) :=
  match s with
  | EmptyString => None
  | String c r =>
      if Ascii.eqb c dquote then Some (String c "", r)
      else if Ascii.eqb c bslash then
        match r with
        | EmptyString => None
        | String d r' =>
            if Ascii.eqb d nl then None
            else match string_body r' with
                 | Some (a, b) => Some (String c (String d a), b)
                 | None => None
                 end
        end
      else match string_body r with Some (a, b) => Some (String c a, b) | None => None end
  end.
Definition scan_string (s : string) : option (string * string) :=
  match s with
  | String c r => if Ascii.eqb c dquote
                  then match string_body r with Some (a, b) => Some (String c a, b) | None => None end
                  else None
  | EmptyString => None
  end.

(** boolRegexp "^\b(true|false)\b", parser.go:120 *)
Definition word_ends (s : string) : bool := match s with String c _ => negb (is_word c) | _ => true end.
Definition scan_bool (s : string) : option (string * string) :=
  if String.prefix "true" s && word_ends (drop 4 s) then Some ("true", drop 4 s)
  else if String.prefix "false" s && word_ends (drop 5 s) then Some ("false", drop 5 s)
  else None.

(** (0[bB])[0-1]+|(0[oO])[0-7]+|(0[xX])[0-9A-Fa-f]+ *)
Definition some_digits (f : ascii -> bool) (p : string) (s : string) : option (string * string) :=
  match span f s with (String c d, rest) => Some (p ++ String c d, rest) | _ => None end.
Definition scan_radix (s : string) : option (string * string) :=
  match s with
  | String z (String c r) =>
      if negb (Ascii.eqb z "0") then None
      else if one_of "bB" c then some_digits is_bin (String z (String c "")) r
      else if one_of "oO" c then some_digits is_oct (String z (String c "")) r
      else if one_of "xX" c then some_digits is_hex (String z (String c "")) r
      else None
  | _ => None
  end.
(** [signs]?\d+ *)
Definition scan_dec (signs : string) (s : string) : option (string * string) :=
  match s with
  | String c r => if one_of signs c then some_digits is_dec (String c "") r else some_digits is_dec "" s
  | EmptyString => None
  end.
Definition scan_num (signs : string) (s : string) : option (string * string) :=
  match scan_radix s with Some x => Some x | None => scan_dec signs s end.
(** intRegexp, parser.go:72 and 86; uintRegexp, parser.go:76 and 87 *)
Definition scan_int : string -> option (string * string) := scan_num "+-".
Definition scan_uint : string -> option (string * string) := scan_num "+".

(** uintSliceRegexp "^\[(U)*(\sU)*\]" with U as in uintRegexp, parser.go:90-91.  No part but
    the last matches a closing bracket, so the match ends at the first one; what is before it must be
    numbers separated by single white space characters.  Simplification: the pattern also
    lets the first element be several numbers without space between, or be empty before a
    space; parseUint then fails on the element, so no match is the same result (an error). *)
Fixpoint until (stop : ascii) (s : string) : option (string * string) :=
  match s with
  | EmptyString => None
  | String c r => if Ascii.eqb c stop then Some ("", r)
                  else match until stop r with Some (a, b) => Some (String c a, b) | None => None end
  end.
Fixpoint split_each_white (s : string) : list string :=
  match s with
  | EmptyString => [""]
  | String c r => if is_white c then "" :: split_each_white r
                  else match split_each_white r with w :: ws => String c w :: ws | [] => [String c ""] end
  end.
Definition full_uint (s : string) : bool :=
  match scan_uint s with Some (_, EmptyString) => true | _ => false end.
(** The text between the brackets, and the rest *)
Definition scan_slice (s : string) : option (string * string) :=
  match s with
  | String c r =>
      if Ascii.eqb c "[" then
        match until "]" r with
        | Some (body, rest) =>
            if (body =? "") || forallb full_uint (split_each_white body) then Some (body, rest) else None
        | None => None
        end
      else None
  | EmptyString => None
  end.

(** runeRegexp "'((\\n)|(\\')|([^']\\[xuU].* )|([^']* ))'", parser.go:124.  It is not
    anchored: the text before the first quote is skipped.  If there is no second quote
    nothing matches.  The result is the text between the quotes. *)
Fixpoint until_last_quote (s : string) : option (string * string) :=
  match s with
  | EmptyString => None
  | String c r =>
      if Ascii.eqb c nl then None
      else match until_last_quote r with
           | Some (a, b) => Some (String c a, b)
           | None => if Ascii.eqb c squote then Some ("", r) else None
           end
  end.
(** [^']\\[xuU].*' *)
Definition scan_rune_hex (s : string) : option (string * string) :=
  match decode s with
  | Some (r, w) =>
      if (r =? code squote)%Z then None
      else match drop w s with
           | String b (String c rest) =>
               if Ascii.eqb b bslash && one_of "xuU" c then
                 match until_last_quote rest with
                 | Some (t, rest') => Some (substring 0 w s ++ String b (String c t), rest')
                 | None => None
                 end
               else None
           | _ => None
           end
  | None => None
  end.
Definition escaped_newline : string := String bslash "n'".
Definition escaped_quote : string := String bslash "''".
Definition scan_rune (s : string) : option (string * string) :=
  match until squote s with
  | None => None
  | Some (_, r) =>
      if String.prefix escaped_newline r then Some (String bslash "n", drop 3 r)
      else if String.prefix escaped_quote r then Some (String bslash "'", drop 3 r)
      else match scan_rune_hex r with
           | Some x => Some x
           | None => until squote r
           end
  end.

(** floatRegexp "^([-+]?([0-9]+(\.[0-9]* )?|\.[0-9]+)([eE][-+]?[0-9]+)?)|([Nn][Aa][Nn])",
    parser.go:142.  Only the first alternative is anchored. *)
Definition scan_exponent (s : string) : string * string :=
  match s with
  | String e r =>
      if one_of "eE" e then match scan_dec "+-" r with Some (d, rest) => (String e d, rest) | None => ("", s) end
      else ("", s)
  | EmptyString => ("", s)
  end.
Definition scan_mantissa (s : string) : option (string * string) :=
  match span is_dec s with
  | (String c d, rest) =>
      match rest with
      | String p r => if Ascii.eqb p "." then let '(f, r') := span is_dec r in Some (String c d ++ String p f, r')
                      else Some (String c d, rest)
      | EmptyString => Some (String c d, rest)
      end
  | (EmptyString, String p r) => if Ascii.eqb p "." then some_digits is_dec "." r else None
  | _ => None
  end.
Definition scan_decimal (s : string) : option (string * string) :=
  let '(sign, r) := match s with
                    | String c r => if one_of "-+" c then (String c "", r) else ("", s)
                    | EmptyString => ("", s)
                    end in
  match scan_mantissa r with
  | None => None
  | Some (m, r') => let '(e, r'') := scan_exponent r' in Some (sign ++ m ++ e, r'')
  end.
Fixpoint scan_nan (s : string) : option (string * string) :=
  match s with
  | EmptyString => None
  | String a r =>
      match r with
      | String b (String c rest) =>
          if one_of "Nn" a && one_of "Aa" b && one_of "Nn" c
          then Some (String a (String b (String c "")), rest) else scan_nan r
      | _ => None
      end
  end.
Definition scan_float (s : string) : option (string * string) :=
  match scan_decimal s with Some x => Some x | None => scan_nan s end.

(** tableNameRegexp "^\[[a-zA-Z_][a-zA-Z0-9_]*\]", parser.go:146: the name and the rest *)
Definition scan_bracketed (s : string) : option (string * string) :=
  match s with
  | String b (String c r) =>
      if Ascii.eqb b "[" && is_alpha_ c then
        match span is_word r with
        | (w, String e rest) => if Ascii.eqb e "]" then Some (String c w, rest) else None
        | _ => None
        end
      else None
  | _ => None
  end.
(** tableNameNilRegexp "^(\[\])", parser.go:147 *)
Definition scan_empty_brackets (s : string) : option string :=
  if String.prefix "[]" s then Some (drop 2 s) else None.
(** tableSetNameRegexp "^\[\[[a-zA-Z_][a-zA-Z0-9_]*\]\]$", parser.go:144: the name *)
Definition scan_set_name (s : string) : option string :=
  match s with
  | String b r => if Ascii.eqb b "[" then
                    match scan_bracketed r with
                    | Some (n, rest) => if rest =? "]" then Some n else None
                    | None => None
                    end
                  else None
  | EmptyString => None
  end.

(** n decimal digits exactly *)
Fixpoint digits_n (n : nat) (s : string) : option (string * string) :=
  match n with
  | O => Some ("", s)
  | S k => match s with
           | String c r => if is_dec c then match digits_n k r with Some (a, b) => Some (String c a, b) | None => None end else None
           | EmptyString => None
           end
  end.

(** ---------- integer literals ---------- *)

(** The digit value of a character in strconv.ParseUint *)
Definition digit_val (c : ascii) : option Z :=
  if between 48 57 c then Some (code c - 48)%Z
  else if between 97 122 c then Some (code c - 97 + 10)%Z
  else if between 65 90 c then Some (code c - 65 + 10)%Z
  else None.
Fixpoint digits_val (base acc : Z) (s : string) : option Z :=
  match s with
  | EmptyString => Some acc
  | String c r => match digit_val c with
                  | Some d => if (d <? base)%Z then digits_val base (acc * base + d)%Z r else None
                  | None => None
                  end
  end.
(** strconv.ParseUint(s, base, bitSize) with a base other than 0; None is an error
    (syntax or range) *)
Definition ParseUint (base bits : Z) (s : string) : option Z :=
  match s with
  | EmptyString => None
  | _ => match digits_val base 0 s with
         | Some v => if (v <? 2 ^ bits)%Z then Some v else None
         | None => None
         end
  end.
(** strconv.ParseInt *)
Definition ParseInt (base bits : Z) (s : string) : option Z :=
  match s with
  | EmptyString => None
  | String c r =>
      let neg := Ascii.eqb c "-" in
      match ParseUint base 64 (if neg || Ascii.eqb c "+" then r else s) with
      | None => None
      | Some v =>
          if neg then if (2 ^ (bits - 1) <? v)%Z then None else Some (- v)%Z
          else if (2 ^ (bits - 1) <=? v)%Z then None else Some v
      end
  end.

(** parseInt (parser.go:1395-1417) and parseUint (parser.go:1420-1442): the base is chosen
    by the prefix; a leading 0 alone means octal. *)
Definition by_prefix (parse : Z -> string -> option Z) (s : string) : option Z :=
  match s with
  | EmptyString => None
  | String z (String c r) =>
      if Ascii.eqb z "0" then
        if one_of "bB" c then parse 2%Z r
        else if one_of "oO" c then parse 8%Z r
        else if one_of "xX" c then parse 16%Z r
        else parse 8%Z s
      else parse 10%Z s
  | _ => parse 10%Z s
  end.
Definition parseInt (bits : Z) (s : string) : option Z := by_prefix (fun b => ParseInt b bits) s.
Definition parseUint (bits : Z) (s : string) : option Z := by_prefix (fun b => ParseUint b bits) s.

(** fmt "%d" *)
Fixpoint dec_digits (fuel : nat) (n : Z) (acc : string) : string :=
  match fuel with
  | O => acc
  | S k => let acc := String (chr (48 + n mod 10)) acc in
           if (n <? 10)%Z then acc else dec_digits k (n / 10) acc
  end.
Definition dec_of_nonneg (n : Z) : string := dec_digits (S (Z.to_nat (Z.log2 n))) n "".
Definition dec_of (z : Z) : string :=
  if (z <? 0)%Z then String "-" (dec_of_nonneg (- z)) else dec_of_nonneg z.

(** parseRune, parser.go:1367-1392 *)
Definition parseRune (s : string) : option Z :=
  match UnquoteChar squote s with
  | Some (v, _, EmptyString) => Some v
  | _ => None
  end.

(** splitSliceString, parser.go:1310-1317 *)
Definition splitSliceString (s : string) : list string := if s =? "" then [] else split_white s.
