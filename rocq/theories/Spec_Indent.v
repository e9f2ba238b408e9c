(** Spec_Indent.v -- JSON texts (RFC 8259), with white space wherever it is allowed, and how
    they look when they are indented. *)
From Coq Require Import ZArith List String Ascii Bool.
From Verif Require Import Base Model_Lex Model_Json Spec_Foreign.
Import ListNotations.
Local Open Scope list_scope.
Local Open Scope string_scope.

(** ---------- strings ---------- *)

Definition hex_digit (c : ascii) (d : Z) : Prop :=
  In (c, d) [("0", 0); ("1", 1); ("2", 2); ("3", 3); ("4", 4); ("5", 5); ("6", 6); ("7", 7); ("8", 8); ("9", 9);
             ("a", 10); ("b", 11); ("c", 12); ("d", 13); ("e", 14); ("f", 15);
             ("A", 10); ("B", 11); ("C", 12); ("D", 13); ("E", 14); ("F", 15)]%char%Z.
(** The escape of the number v: a backslash, u and four hexadecimal digits *)
Definition u_escape (t : string) (v : Z) : Prop :=
  exists a b c d x y z w, hex_digit a x /\ hex_digit b y /\ hex_digit c z /\ hex_digit d w
    /\ t = String bslash (String "u" (String a (String b (String c (String d ""))))) /\ v = (((x * 16 + y) * 16 + z) * 16 + w)%Z.
Definition high (v : Z) : Prop := (55296 <= v < 56320)%Z.
Definition low (v : Z) : Prop := (56320 <= v < 57344)%Z.

(** What stands from after the opening quote to the closing quote, and the text (UTF-8) that it
    means.  Bytes that are not UTF-8, and surrogates that do not come in pairs, mean U+FFFD. *)
Inductive says : string -> string -> Prop :=
  | says_end : says (String dquote "") ""
  | says_char r t v : valid_rune r = true -> (32 <= r)%Z -> r <> 34%Z -> r <> 92%Z -> says t v -> says (encode r ++ t) (encode r ++ v)
  | says_byte c t v : (128 <= code c)%Z -> (forall r u, valid_rune r = true -> String c t <> encode r ++ u) -> says t v ->
      says (String c t) (encode RuneError ++ v)
  | says_letter c z t v : In (c, z) [(dquote, 34); (bslash, 92); ("/", 47); ("b", 8); ("f", 12); ("n", 10); ("r", 13); ("t", 9)]%char%Z ->
      says t v -> says (String bslash (String c t)) (String (chr z) v)
  | says_u e r t v : u_escape e r -> valid_rune r = true -> says t v -> says (e ++ t) (encode r ++ v)
  | says_pair e x e' y t v : u_escape e x -> high x -> u_escape e' y -> low y -> says t v ->
      says (e ++ e' ++ t) (encode ((x - 55296) * 1024 + (y - 56320) + 65536)%Z ++ v)
  | says_lone e x t v : u_escape e x -> high x \/ low x -> (high x -> forall e' y u, u_escape e' y -> low y -> t <> e' ++ u) -> says t v ->
      says (e ++ t) (encode RuneError ++ v).
Definition string_says (t v : string) : Prop := exists s, t = String dquote s /\ says s v.

(** ---------- documents ---------- *)

(** A JSON text without its white space: the texts of numbers, strings and words as they are,
    with their values *)
Inductive doc :=
  | Scalar (t : string) (j : json)
  | Arr (l : list doc)
  | Obj (m : list (string * string * doc)).

Inductive scalar : string -> json -> Prop :=
  | sc_true : scalar "true" (JBool true)
  | sc_false : scalar "false" (JBool false)
  | sc_null : scalar "null" JNull
  | sc_number t : number_text t -> scalar t (JNum t)
  | sc_string t v : string_says t v -> scalar t (JStr v).

(** White space: spaces, tabs, newlines and carriage returns *)
Definition blank (b : string) : Prop := Forall (fun c => In (N_of_ascii c) [32; 9; 10; 13]%N) (list_ascii_of_string b).

Section layers.
(** The texts of the values inside *)
Variable V : string -> doc -> Prop.
Inductive elements : string -> list doc -> Prop :=
  | el_one a t b d : blank a -> V t d -> blank b -> elements (a ++ t ++ b) [d]
  | el_more a t b d r l : blank a -> V t d -> blank b -> elements r l -> elements (a ++ t ++ b ++ "," ++ r) (d :: l).
Inductive members : string -> list (string * string * doc) -> Prop :=
  | me_one a k v b c t e d : blank a -> string_says k v -> blank b -> blank c -> V t d -> blank e -> members (a ++ k ++ b ++ ":" ++ c ++ t ++ e) [(k, v, d)]
  | me_more a k v b c t e d r m : blank a -> string_says k v -> blank b -> blank c -> V t d -> blank e -> members r m ->
      members (a ++ k ++ b ++ ":" ++ c ++ t ++ e ++ "," ++ r) ((k, v, d) :: m).
Inductive layer : string -> doc -> Prop :=
  | ly_scalar t j : scalar t j -> layer t (Scalar t j)
  | ly_no_elements b : blank b -> layer ("[" ++ b ++ "]") (Arr [])
  | ly_elements t l : elements t l -> layer ("[" ++ t ++ "]") (Arr l)
  | ly_no_members b : blank b -> layer ("{" ++ b ++ "}") (Obj [])
  | ly_members t m : members t m -> layer ("{" ++ t ++ "}") (Obj m).
End layers.
(** The text is the document, with at most n arrays and objects inside each other. *)
Fixpoint spells (n : nat) (t : string) (d : doc) : Prop :=
  match n with
  | O => exists j, scalar t j /\ d = Scalar t j
  | S k => layer (spells k) t d
  end.

(** The value of a document; of two members with the same key the later one counts. *)
Fixpoint value_of (d : doc) : json :=
  match d with
  | Scalar _ j => j
  | Arr l => JArr (map value_of l)
  | Obj m => JObj ((fix go m acc := match m with [] => acc | (_, v, d) :: r => go r (jput v (value_of d) acc) end) m [])
  end.

(** ---------- indented ---------- *)

Fixpoint tabs (n : nat) : string := match n with O => "" | S k => String (chr 9) (tabs k) end.
(** A new line, indented by n tabs *)
Definition line (n : nat) : string := String nl (tabs n).
(** Every element and every member is on its own line, one tab further in than the brackets, a
    space after the colon; empty arrays and objects are not opened. *)
Fixpoint pretty (n : nat) (d : doc) : string :=
  match d with
  | Scalar t _ => t
  | Arr [] => "[]"
  | Arr l => "[" ++ line (S n) ++ String.concat ("," ++ line (S n)) (map (pretty (S n)) l) ++ line n ++ "]"
  | Obj [] => "{}"
  | Obj m => "{" ++ line (S n) ++ String.concat ("," ++ line (S n)) (map (fun x => fst (fst x) ++ ": " ++ pretty (S n) (snd x)) m) ++ line n ++ "}"
  end.
