(** Spec_Race.v -- what the theorems on concurrent parsing mean. *)
From Coq Require Import ZArith NArith List String Ascii Bool.
From Verif Require Import Base Model_Names Model_Table Model_Heap Model_TableSet Model_Lex Model_Parser Model_Race.
Import ListNotations.
Local Open Scope string_scope.
Local Open Scope list_scope.

(** The goroutine's call gave what a call gives that runs alone, apart from the line number in
    an error message. *)
Definition same_outcome (o : outcome) (alone : heap * res tset) : Prop :=
  match o, alone with
  | Parsed h ts, (h', Ok ts') => h = h' /\ ts = ts'
  | Failed _, (_, Err) => True
  | Panicked, (_, Panic) => True
  | _, _ => False
  end.

(** A call that runs alone, whatever the shared variable holds before *)
Definition alone (n : Z) (s : string) (h : heap) (o : outcome) : Prop :=
  exists k n' t, run_schedule (repeat 0 k) (n, [start s h]) = (n', [t]) /\ th_pc t = PDone o.

(** A line that is skipped: after the white space comes a # *)
Definition comment (l : string) : Prop := match TrimSpace l with String c _ => c = "#"%char | EmptyString => False end.

(** Goroutine [i] is done. *)
Definition done (ts : list thread) (i : nat) (o : outcome) : Prop := exists t, nth_error ts i = Some t /\ th_pc t = PDone o.
