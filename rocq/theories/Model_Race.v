(** Model_Race.v -- calls of the text parser that run at the same time in several goroutines.
    They share the package variable globalLineNum (parser.go:94); everything else they use is
    their own.  Simplified: each goroutine has its own part of the heap (the tables that a
    call makes are not reachable from any other goroutine before it returns), and reads and
    writes of the shared variable are atomic and happen in one order. *)
From Coq Require Import ZArith NArith List String Ascii Bool.
From Verif Require Import Base Model_Names Model_Table Model_Heap Model_TableSet Model_Lex Model_Parser.
Import ListNotations.
Local Open Scope string_scope.
Local Open Scope list_scope.

(** What a call returned; the error messages that give a position start with file:line: (gotFilePos,
    parser.go:653-655). *)
Inductive outcome := Parsed (h : heap) (ts : tset) | Failed (line : Z) | Panicked.

(** Where a goroutine is in parseString, parser.go:287-528 *)
Inductive pc :=
  | PReset                 (* globalLineNum = 1, parser.go:287 *)
  | PLine                  (* the body of the loop, parser.go:289-527 *)
  | PIncRead               (* globalLineNum++, parser.go:288: read, *)
  | PIncWrite (v : Z)      (*   and write *)
  | PFail                  (* gotFilePos reads globalLineNum, parser.go:654 *)
  | PDone (o : outcome).
Record thread := mkTh { th_lines : list string; th_state : parse_state; th_pc : pc }.

(** A call that starts to parse [s] *)
Definition start (s : string) (h : heap) : thread :=
  mkTh (lines s) (mkPS h (NewTableSet "") TABLE_NAME UNDEFINED_SHAPE false [] [] false None) PReset.

(** One step of a goroutine; [n] is globalLineNum.  After a [continue] on the last line the
    next ReadString returns an empty line and io.EOF. *)
Definition step (n : Z) (t : thread) : Z * thread :=
  let at_pc := mkTh (th_lines t) (th_state t) in
  match th_pc t with
  | PReset => (1%Z, at_pc PLine)
  | PIncRead => (n, at_pc (PIncWrite n))
  | PIncWrite v => ((v + 1)%Z, at_pc PLine)
  | PFail => (n, at_pc (PDone (Failed n)))
  | PDone o => (n, t)
  | PLine =>
      let '(l, r, last) := match th_lines t with
                           | [] => ("", [], true)
                           | l :: r => (l, r, match r with [] => true | _ => false end)
                           end in
      match parse_line l (th_state t) with
      | Err => (n, at_pc PFail)
      | Panic => (n, at_pc (PDone Panicked))
      | Ok (continued, g) =>
          (n, mkTh r g (if last && negb continued then PDone (Parsed (ps_heap g) (ps_set g)) else PIncRead))
      end
  end.

(** Goroutine [i] makes a step. *)
Definition step_at (i : nat) (w : Z * list thread) : Z * list thread :=
  let '(n, ts) := w in
  match nth_error ts i with
  | None => w
  | Some t => let '(n', t') := step n t in (n', upd ts i t')
  end.
(** A schedule says which goroutine makes the next step. *)
Definition run_schedule (sched : list nat) (w : Z * list thread) : Z * list thread := fold_left (fun w i => step_at i w) sched w.
