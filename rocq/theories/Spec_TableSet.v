(** Spec_TableSet.v -- what a user expects of a table set. *)
From Coq Require Import ZArith NArith List String Ascii Bool.
From Verif Require Import Base Model_Names Model_Table Model_Sort Model_Ops Model_Heap Model_TableSet.
Import ListNotations.
Local Open Scope list_scope.

(** The names of the tables of a set, in order. *)
Definition set_names (h : heap) (s : tset) : list string := map (ref_name h) (ts_tables s).

(** The call renames no table of a set, except that RenameTable of a set renames a table
    that is in no other set. *)
Definition respects_sets (g : pstate) (c : sop) : Prop :=
  match c with
  | PTab (HTab (Some p) (OSetName _)) => forall s, In s (p_sets g) -> ~ In (Some p) (ts_tables s)
  | PRenameTable (Some i) from _ =>
      forall j s p, nth_error (p_sets g) j = Some s -> In (Some p) (ts_tables s) -> ref_name (p_heap g) (Some p) = from ->
        (exists s0, nth_error (p_sets g) i = Some s0 /\ In (Some p) (ts_tables s0)) -> j = i
  | _ => True
  end.

(** Any history of calls that respect the sets, whatever the calls return. *)
Inductive set_history (E : env) : pstate -> Prop :=
| sh_start : set_history E (mkP [] [])
| sh_call g c : set_history E g -> sop_typed g c = true -> respects_sets g c -> set_history E (fst (sexec E c g)).
