(** Spec_YamlCells.v -- what the cells of a table hold that was read from a YAML document of
    unknown origin (C50). *)
From Coq Require Import ZArith List String Ascii Bool SpecFloat.
From Verif Require Import Base Model_Names Model_Table Model_Heap Model_Lex Model_Float Model_Json Model_Yaml Spec Spec_Heap Spec_Round Spec_Decimal Spec_Foreign Spec_JsonCells.
Import ListNotations.
Local Open Scope string_scope.
Local Open Scope list_scope.

(** The integer w of the type is z, as far as its bits can tell: z itself if it is in the range. *)
Definition wraps (k : ikind) (z w : Z) : Prop := in_range k w = true /\ exists n, (w = z + n * 2 ^ ibits k)%Z.

(** The map m describes the table at p; without a name, a nil table. *)
Inductive doc_says (h : heap) : list (string * ydoc) -> ptr -> Prop :=
| doc_nameless m p : yget m "tableName" = Some (YStr "") -> is_nil (tab h p) = true -> cnames (tab h p) = [] -> rows (tab h p) = [] -> doc_says h m p
| doc_table m p :
    tname (tab h p) <> "" -> yaml_table h m p ->
    (forall data kr y, yget m "data" = Some (YList data) -> nth_error data kr = Some y ->
       exists cells, y = YList cells /\ List.length cells <= List.length (ctypes (tab h p))) ->
    (forall data kr cells kc ct v, yget m "data" = Some (YList data) -> nth_error data kr = Some (YList cells) ->
       nth_error (ctypes (tab h p)) kc = Some ct -> cell_value (tab h p) kc kr = Some v -> doc_cell h p ct (nth_error cells kc) v) ->
    doc_says h m p
with doc_cell (h : heap) : ptr -> string -> option ydoc -> value -> Prop :=
| doc_absent p ct v : zero_of (blank h p) ct v -> doc_cell h p ct None v
| doc_string p s : doc_cell h p "string" (Some (YStr s)) (VString s)
| doc_bool p b : doc_cell h p "bool" (Some (YBool b)) (VBool b)
| doc_time p t : doc_cell h p "time.Time" (Some (YTime t)) (VTime t)
| doc_int p ct k z w : has_type ct (VInt k w) -> wraps k z w -> doc_cell h p ct (Some (YInt z)) (VInt k w)
| doc_big p ct k z : ct = "uint" \/ ct = "uint64" -> has_type ct (VInt k z) -> doc_cell h p ct (Some (YUint z)) (VInt k z)
| doc_float64 p f : doc_cell h p "float64" (Some (YFloat f)) (VFloat64 f)
| doc_float32 p f g : float32_says f g -> doc_cell h p "float32" (Some (YFloat f)) (VFloat32 g)
| doc_int_float32 p z g :
    rounds 24 128 (z <? 0)%Z (Z.abs z) 1 g \/ too_big 24 128 (Z.abs z) 1 /\ g = S754_infinity (z <? 0)%Z ->
    doc_cell h p "float32" (Some (YInt z)) (VFloat32 g)
| doc_bytes p ct l bs : ct = "[]byte" \/ ct = "[]uint8" ->
    Forall2 (fun y c => exists z, y = YInt z /\ wraps KUint8 z (Z.of_nat (nat_of_ascii c))) l bs ->
    doc_cell h p ct (Some (YList l)) (VBytes (Some bs))
| doc_nested p m q : p < q < List.length h -> doc_says h m q -> doc_cell h p "*Table" (Some (YMap m)) (VTable (Some q)).
