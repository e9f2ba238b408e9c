(** Spec_File.v -- what the theorems on files mean. *)
From Coq Require Import ZArith NArith List String Ascii Bool.
From Verif Require Import Base Model_Names Model_Table Model_Heap Model_TableSet Model_File Spec Spec_Text.
Import ListNotations.
Local Open Scope string_scope.
Local Open Scope list_scope.

(** Making a name absolute does not change the file that it denotes. *)
Definition os_ok (O : os) : Prop := forall n n', resolve O n = Ok n' -> place O n' = place O n.

(** The name denotes a file that can be read, or nothing and the file that is created there
    with this mode can be read. *)
Definition can_read (O : os) (fs : files) (name : string) (mode : Z) : Prop :=
  match fs (place O name) with
  | Some (File r _) => r = true
  | Some Dir => False
  | None => perm O (if Z.eqb mode 0 then 438 else mode) = true
  end.

(** [t'] is a torn copy of [t]: it has its name, and either no rows, or its columns and the
    first rows of [t], followed by at most one other row in place of the next row of [t]. *)
Definition torn_table (f : value -> value) (t t' : table) : Prop :=
  tname t' = tname t /\ is_nil t' = false /\
  ((rows t' = [] /\ (cnames t' = [] \/ cnames t' = cnames t \/ exists c, cnames t' = [c])) \/
   (cnames t' = cnames t /\ ctypes t' = ctypes t /\ exists i,
      rows t' = firstn i (map (map f) (rows t)) \/
      (i < List.length (rows t) /\ exists row, rows t' = firstn i (map (map f) (rows t)) ++ [row]))).

(** [s'] is a torn copy of [s]: the first [j] tables are complete copies, and at most one
    other table follows, a torn copy of table [j].  The name of the set is kept, unless
    nothing is left. *)
Definition torn_set (f : value -> value) (h : heap) (s : tset) (h' : heap) (s' : tset) : Prop :=
  (ts_name s' = ts_name s \/ (ts_name s' = "" /\ ts_tables s' = [])) /\
  exists j, j <= List.length (ts_tables s) /\
    (forall i, i < j -> exists p t p' t', nth_error (ts_tables s) i = Some (Some p) /\ nth_error h p = Some t /\
       nth_error (ts_tables s') i = Some (Some p') /\ nth_error h' p' = Some t' /\ same_content f t t') /\
    (List.length (ts_tables s') = j \/
     List.length (ts_tables s') = S j /\ exists p t p' t', nth_error (ts_tables s) j = Some (Some p) /\ nth_error h p = Some t /\
       nth_error (ts_tables s') j = Some (Some p') /\ nth_error h' p' = Some t' /\ torn_table f t t').

(** Writing sets one after the other; all writes must succeed. *)
Record write := mkW { w_name : string; w_mode : Z; w_set : tset; w_bytes : nat }.
Fixpoint writes (O : os) (ip : Z -> bool) (h : heap) (ws : list write) (fs : files) : option files :=
  match ws with
  | [] => Some fs
  | w :: r =>
      match TS_WriteFile O ip (Written (w_bytes w)) h (Some (w_set w)) (w_name w) (w_mode w) fs with
      | (fs', Ok _) => writes O ip h r fs'
      | _ => None
      end
  end.
