(** Props_Race.v -- the line number of an error, and parsing in several goroutines (C56). *)
From Coq Require Import ZArith NArith List String Ascii Bool Lia.
From Verif Require Import Base Model_Names Model_Table Model_Heap Model_TableSet Model_Lex Model_Parser Model_Race Spec_Race
  Proofs_Lib Spec_Heap Proofs_Parser Proofs_Lines Proofs_Lex Proofs_Torn.
Import ListNotations.
Local Open Scope string_scope.
Local Open Scope list_scope.

(** ---------- one goroutine ---------- *)

(** What is still to come *)
Definition pl (ls : list string) (g : parse_state) : res parse_state :=
  match ls with [] => let! (_, g) := parse_line "" g in Ok g | _ => parse_lines ls g end.
Definition returns (r : res parse_state) : res (heap * tset) := let! g := r in Ok (ps_heap g, ps_set g).
Definition future (t : thread) : res (heap * tset) :=
  match th_pc t with
  | PFail | PDone (Failed _) => Err
  | PDone (Parsed h ts) => Ok (h, ts)
  | PDone Panicked => Panic
  | _ => returns (pl (th_lines t) (th_state t))
  end.

Lemma step_future n t : future (snd (step n t)) = future t.
Proof.
  destruct t as [ls g pc]. unfold step. cbn [th_pc th_lines th_state]. destruct pc as [| | |v| |o]; try reflexivity.
  destruct ls as [|l r].
  - unfold future. cbn [th_pc th_lines th_state pl]. destruct (parse_line "" g) as [[c g']| |] eqn:E; cbn [snd th_pc rbind]; try reflexivity.
    assert (c = false) as ->; [|reflexivity].
    unfold parse_line in E. change (TrimSpace "") with "" in E. cbn match in E. destruct (ps_expecting g); try discriminate; now injection E as <- _.
  - unfold future. cbn [th_pc th_lines th_state pl parse_lines]. destruct (parse_line l g) as [[c g']| |]; cbn [snd th_pc rbind]; try reflexivity.
    destruct r as [|l2 r]; cbn [andb th_lines th_state pl]; [|reflexivity]. destruct c; reflexivity.
Qed.
Lemma start_future s h : future (start s h) = match NewTableSetFromString s h with (h', Ok ts) => Ok (h', ts) | (_, Err) => Err | (_, Panic) => Panic end.
Proof.
  unfold future, start, NewTableSetFromString. cbn [th_pc th_lines th_state]. destruct (lines_cons s) as (l & ls & ->). cbn [pl].
  destruct (parse_lines (l :: ls) _); reflexivity.
Qed.

(** How many steps are left at most *)
Definition left_over (t : thread) : nat :=
  3 * List.length (th_lines t) +
  match th_pc t with PReset => 4 | PLine => 3 | PIncRead => 5 | PIncWrite _ => 4 | PFail => 1 | PDone _ => 0 end.
Definition is_done (t : thread) : bool := match th_pc t with PDone _ => true | _ => false end.
Lemma step_left n t : is_done t = false -> is_done (snd (step n t)) = true \/ left_over (snd (step n t)) < left_over t.
Proof.
  destruct t as [ls g pc]. unfold step, is_done, left_over. cbn [th_pc th_lines th_state]. intros D.
  destruct pc as [| | |v| |o]; cbn [snd th_pc th_lines]; try (right; lia); try (left; reflexivity); try discriminate.
  destruct ls as [|l r].
  - destruct (parse_line "" g) as [[c g']| |] eqn:E; cbn [snd th_pc th_lines List.length]; [|right; lia|now left].
    assert (c = false) as ->; [|now left].
    unfold parse_line in E. change (TrimSpace "") with "" in E. cbn match in E. destruct (ps_expecting g); try discriminate; now injection E as <- _.
  - destruct (parse_line l g) as [[c g']| |]; cbn [snd th_pc th_lines List.length]; [|right; lia|now left].
    destruct ((match r with [] => true | _ => false end) && negb c); [now left|]. right. lia.
Qed.

(** ---------- schedules ---------- *)

Definition starts (inputs : list (string * heap)) : list thread := map (fun p => start (fst p) (snd p)) inputs.

Lemma step_at_len i w : List.length (snd (step_at i w)) = List.length (snd w).
Proof.
  destruct w as [n ts]. cbn [step_at snd]. destruct (nth_error ts i) as [t|]; [|reflexivity]. destruct (step n t) as [n' t']. cbn [snd]. apply upd_length.
Qed.
Lemma step_at_same i j n ts : i <> j -> nth_error (snd (step_at i (n, ts))) j = nth_error ts j.
Proof.
  intros N. cbn [step_at]. destruct (nth_error ts i) as [t|]; [|reflexivity]. destruct (step n t) as [n' t']. cbn [snd]. now apply nth_error_upd_ne.
Qed.
Lemma step_at_own i n ts t : nth_error ts i = Some t -> nth_error (snd (step_at i (n, ts))) i = Some (snd (step n t)).
Proof.
  intros E. cbn [step_at]. rewrite E. destruct (step n t) as [n' t']. cbn [snd]. apply nth_error_upd_eq. now apply nth_error_some_lt in E.
Qed.

Lemma schedule_future sched : forall w i t, nth_error (snd w) i = Some t ->
  exists t', nth_error (snd (run_schedule sched w)) i = Some t' /\ future t' = future t /\
    (is_done t' = true \/ left_over t' + count_occ Nat.eq_dec sched i <= left_over t).
Proof.
  induction sched as [|j sched IH]; intros [n ts] i t E; cbn [run_schedule fold_left].
  - exists t. split; [exact E|]. split; [reflexivity|]. right. cbn. lia.
  - assert (K : exists t1, nth_error (snd (step_at j (n, ts))) i = Some t1 /\ future t1 = future t /\
        (is_done t1 = true \/ left_over t1 + (if Nat.eq_dec j i then 1 else 0) <= left_over t)).
    { destruct (Nat.eq_dec j i) as [->|N].
      - exists (snd (step n t)). split; [now apply step_at_own|]. split; [apply step_future|].
        destruct (is_done t) eqn:D; [left; destruct t as [? ? []]; try discriminate; reflexivity|]. destruct (step_left n t D); [now left|right; lia].
      - exists t. rewrite step_at_same by exact N. split; [exact E|]. split; [reflexivity|]. right. lia. }
    destruct K as (t1 & E1 & F1 & L1). destruct (IH (step_at j (n, ts)) i t1 E1) as (t' & E' & F' & L').
    exists t'. split; [exact E'|]. split; [congruence|].
    destruct L1 as [D|L1].
    + (* done is final *)
      left. clear - D E1 E'. unfold run_schedule in E'. revert E1 E'. generalize (step_at j (n, ts)). clear - D. revert t1 D.
      induction sched as [|k sched IH]; intros t1 D [m us] E1 E'; cbn [fold_left] in E'; [congruence|].
      apply (IH (snd (step m t1))) with (3 := E').
      * destruct t1 as [? ? []]; try discriminate; reflexivity.
      * destruct (Nat.eq_dec k i) as [->|N]; [now apply step_at_own|]. rewrite step_at_same by exact N. cbn [snd] in E1. rewrite E1. f_equal. destruct t1 as [? ? []]; try discriminate; reflexivity.
    + destruct L' as [D|L']; [now left|right]. cbn [count_occ]. destruct (Nat.eq_dec j i); lia.
Qed.

(** C56: whatever the schedule, a call that is done gave what it gives alone. *)
Theorem C56_any_schedule : forall inputs sched n n' ts i s h o,
  run_schedule sched (n, starts inputs) = (n', ts) -> nth_error inputs i = Some (s, h) -> done ts i o ->
  same_outcome o (NewTableSetFromString s h).
Proof.
  intros inputs sched n n' ts i s h o R I (t' & T & D).
  assert (E : nth_error (snd (n, starts inputs)) i = Some (start s h)) by (cbn [snd]; unfold starts; now rewrite nth_error_map, I).
  destruct (schedule_future sched _ _ _ E) as (t2 & T2 & F & _). rewrite R in T2. cbn [snd] in T2. rewrite T in T2. injection T2 as <-.
  rewrite start_future in F. unfold future in F. rewrite D in F. unfold same_outcome.
  destruct o as [h' ts'|k|]; destruct (NewTableSetFromString s h) as [h1 [ts1| |]]; try discriminate; auto. now injection F as -> ->.
Qed.
(** C56: every call that gets enough steps returns, and it never panics. *)
Theorem C56_every_call_returns : forall inputs sched n n' ts i s h, wf_heap h ->
  run_schedule sched (n, starts inputs) = (n', ts) -> nth_error inputs i = Some (s, h) ->
  3 * List.length (lines s) + 4 <= count_occ Nat.eq_dec sched i -> exists o, done ts i o /\ o <> Panicked.
Proof.
  intros inputs sched n n' ts i s h W R I L.
  assert (E : nth_error (snd (n, starts inputs)) i = Some (start s h)) by (cbn [snd]; unfold starts; now rewrite nth_error_map, I).
  destruct (schedule_future sched _ _ _ E) as (t2 & T2 & F & D). rewrite R in T2. cbn [snd] in T2.
  assert (DN : is_done t2 = true).
  { destruct D as [D|D]; [exact D|]. unfold left_over at 2 in D. cbn [start th_lines th_pc] in D. destruct t2 as [ls2 g2 p2]. unfold left_over in D. cbn [th_lines th_pc] in D.
    destruct p2; try reflexivity; lia. }
  unfold is_done in DN. destruct (th_pc t2) as [| | |v| |o] eqn:PC; try discriminate. exists o. split; [now exists t2|]. intros ->.
  rewrite start_future in F. unfold future in F. rewrite PC in F. pose proof (parse_ok h s W) as B. destruct (NewTableSetFromString s h) as [h1 [ts1| |]]; try discriminate. contradiction.
Qed.


(** ---------- the line number ---------- *)

Fixpoint count (ls : list string) (g : parse_state) (n : Z) : outcome :=
  match ls with
  | [] => match parse_line "" g with Ok (_, g) => Parsed (ps_heap g) (ps_set g) | Err => Failed n | Panic => Panicked end
  | l :: r =>
      match parse_line l g with
      | Err => Failed n
      | Panic => Panicked
      | Ok (c, g) => match r, c with [], false => Parsed (ps_heap g) (ps_set g) | _, _ => count r g (n + 1)%Z end
      end
  end.
Definition blame (n : Z) (t : thread) : outcome :=
  match th_pc t with
  | PReset => count (th_lines t) (th_state t) 1
  | PLine => count (th_lines t) (th_state t) n
  | PIncRead => count (th_lines t) (th_state t) (n + 1)
  | PIncWrite v => count (th_lines t) (th_state t) (v + 1)
  | PFail => Failed n
  | PDone o => o
  end.
Lemma step_blame n t : blame (fst (step n t)) (snd (step n t)) = blame n t.
Proof.
  destruct t as [ls g pc]. unfold step. cbn [th_pc th_lines th_state]. destruct pc as [| | |v| |o]; try reflexivity.
  destruct ls as [|l r]; unfold blame; cbn [th_pc th_lines th_state count].
  - destruct (parse_line "" g) as [[c g']| |] eqn:E; cbn [fst snd th_pc]; try reflexivity.
    assert (c = false) as ->; [|reflexivity].
    unfold parse_line in E. change (TrimSpace "") with "" in E. cbn match in E. destruct (ps_expecting g); try discriminate; now injection E as <- _.
  - destruct (parse_line l g) as [[c g']| |]; cbn [fst snd th_pc]; try reflexivity. destruct r as [|l2 r]; [destruct c|]; reflexivity.
Qed.
Lemma run_blame k : forall n t, exists n' t', run_schedule (repeat 0 k) (n, [t]) = (n', [t']) /\ blame n' t' = blame n t.
Proof.
  induction k as [|k IH]; intros n t; cbn [repeat run_schedule fold_left]; [eauto|].
  pose proof (step_blame n t) as B. cbn [step_at nth_error]. destruct (step n t) as [n1 t1]. cbn [fst snd upd] in *.
  destruct (IH n1 t1) as (n' & t' & R & B'). exists n', t'. split; [exact R|congruence].
Qed.
Lemma alone_count n s h o : alone n s h o <-> o = count (lines s) (th_state (start s h)) 1.
Proof.
  split.
  - intros (k & n' & t & R & D). destruct (run_blame k n (start s h)) as (n2 & t2 & R2 & B). rewrite R in R2. injection R2 as <- <-.
    unfold blame in B. rewrite D in B. exact B.
  - intros ->. set (k := 3 * List.length (lines s) + 4).
    destruct (run_blame k n (start s h)) as (n' & t' & R & B).
    destruct (schedule_future (repeat 0 k) (n, [start s h]) 0 (start s h) eq_refl) as (t2 & T2 & _ & D). rewrite R in T2. cbn [snd nth_error] in T2. injection T2 as <-.
    assert (DN : is_done t' = true).
    { destruct D as [D|D]; [exact D|]. assert (CO : count_occ Nat.eq_dec (repeat 0 k) 0 = k).
      { clear. induction k as [|k IH]; [reflexivity|]. cbn. now rewrite IH. }
      rewrite CO in D. unfold left_over in D. cbn [start th_lines th_pc] in D. unfold k in D. destruct t' as [ls2 g2 p2]. cbn [th_lines th_pc] in D. destruct p2; try reflexivity; lia. }
    exists k, n', t'. split; [exact R|]. unfold is_done in DN. unfold blame in B. destruct (th_pc t'); try discriminate. now rewrite B.
Qed.
Lemma count_returns ls : forall g n, match count ls g n with Parsed h ts => returns (pl ls g) = Ok (h, ts) | Failed _ => returns (pl ls g) = Err | Panicked => returns (pl ls g) = Panic end.
Proof.
  induction ls as [|l r IH]; intros g n; cbn [count pl parse_lines].
  - destruct (parse_line "" g) as [[c g']| |]; reflexivity.
  - destruct (parse_line l g) as [[c g']| |]; cbn [rbind]; try reflexivity. destruct r as [|l2 r]; [destruct c; [|reflexivity]|]; exact (IH g' (n + 1)%Z).
Qed.

(** Which line *)
Lemma count_failed ls : forall g n k, count ls g n = Failed k -> (n <= k <= n + Z.of_nat (List.length ls))%Z.
Proof.
  induction ls as [|l r IH]; intros g n k; cbn [count List.length].
  - destruct (parse_line "" g) as [[c g']| |]; try discriminate. intros [= <-]. lia.
  - destruct (parse_line l g) as [[c g']| |]; try discriminate; [|intros [= <-]; lia]. destruct r as [|l2 r]; [destruct c; try discriminate|]; intros E; apply IH in E; cbn [List.length] in *; lia.
Qed.
Lemma count_prefix ls : forall ls' g n m, count ls g n = Failed (n + Z.of_nat m) -> m < List.length ls -> firstn (S m) ls' = firstn (S m) ls -> count ls' g n = Failed (n + Z.of_nat m).
Proof.
  induction ls as [|l r IH]; intros ls' g n m E L P; [cbn in L; lia|]. destruct ls' as [|l' r']; [discriminate|].
  cbn [firstn] in P. injection P as -> P. cbn [count] in *. destruct (parse_line l g) as [[c g']| |]; try discriminate; [|exact E].
  destruct m as [|m].
  { exfalso. destruct r as [|l2 r]; [destruct c; try discriminate|]; apply count_failed in E; lia. }
  destruct r as [|l2 r]; [cbn in L; lia|]. destruct r' as [|l2' r']; [discriminate|].
  replace (n + Z.of_nat (S m))%Z with (n + 1 + Z.of_nat m)%Z in * by lia. apply (IH (l2' :: r')); auto. cbn [List.length] in *. lia.
Qed.
Lemma parse_line_true l g g' : parse_line l g = Ok (true, g') -> comment l \/ ps_expecting g' = TABLE_NAME.
Proof.
  unfold parse_line, comment. destruct (TrimSpace l) as [|c r]; [destruct (ps_expecting g); discriminate|].
  destruct (Ascii.eqb_spec c "#") as [->|]; [auto|]. intros E. right. destruct (ps_expecting g) eqn:X.
  - unfold table_name_line in E. destruct (if ps_named g then Err else getTableSetName (String c r)) as [m| |].
    + apply (f_equal (fun r => match r with Ok p => ps_expecting (snd p) | _ => TABLE_NAME end)) in E. cbn in E. congruence.
    + destruct (getTableName (String c r)) as [m| |]; cbn [rbind] in E; try discriminate. destruct (NewTable m) as [t| |]; cbn [rbind] in E; try discriminate.
      destruct (AppendTable _ _ _) as [ts [u| |]]; cbn [rbind] in E; discriminate.
    + discriminate.
  - destruct (col_names_line _ g); discriminate.
  - destruct (col_types_line _ g); discriminate.
  - destruct (col_rows_line _ g); discriminate.
Qed.
Lemma count_before ls : forall g n k j l, count ls g n = Failed k -> (n + Z.of_nat j < k)%Z -> nth_error ls j = Some l -> ~ comment l ->
  exists g', pl (firstn (S j) ls) g = Ok g'.
Proof.
  induction ls as [|l0 r IH]; intros g n k j l E L N C; [destruct j; discriminate|]. cbn [count] in E. cbn [firstn pl parse_lines].
  destruct (parse_line l0 g) as [[c g']| |] eqn:P; try discriminate; cbn [rbind]; [|injection E as <-; lia].
  destruct j as [|j].
  - cbn [firstn nth_error] in *. injection N as ->. destruct c; [|eauto]. destruct (parse_line_true _ _ _ P) as [X|X]; [contradiction|].
    unfold parse_line. change (TrimSpace "") with "". cbn match. rewrite X. cbn [rbind]. eauto.
  - cbn [nth_error] in N. destruct r as [|l2 r]; [destruct j; discriminate|]. destruct (IH g' (n + 1)%Z k j l E ltac:(lia) N C) as (g2 & G2).
    exists g2. cbn [firstn] in *. exact G2.
Qed.

(** Texts and lines *)
Lemma lines_no_nl s : Forall (fun l => has nl l = false) (lines s).
Proof.
  induction s as [|c s IH]; cbn [lines]; [repeat constructor|]. destruct (Ascii.eqb c nl) eqn:E; [constructor; auto|].
  destruct (lines s) as [|l ls]; [constructor; [|constructor]|apply Forall_cons_iff in IH as [I1 I2]; constructor; [|exact I2]]; unfold has in *; cbn [list_ascii_of_string existsb];
    rewrite Ascii.eqb_sym, E; [reflexivity|exact I1].
Qed.
Lemma lines_concat ls : ls <> [] -> Forall (fun l => has nl l = false) ls -> lines (String.concat Model_Print.newline ls) = ls.
Proof.
  intros N F. induction F as [|l ls L F IH]; [congruence|]. destruct ls as [|l2 ls].
  - cbn [String.concat]. clear - L. induction l as [|c l IH]; [reflexivity|]. cbn [lines]. unfold has in L. cbn [list_ascii_of_string existsb] in L. apply orb_false_iff in L as [L1 L2].
    rewrite Ascii.eqb_sym, L1, (IH L2). reflexivity.
  - change (String.concat Model_Print.newline (l :: l2 :: ls)) with (l ++ Model_Print.newline ++ String.concat Model_Print.newline (l2 :: ls))%string.
    rewrite lines_line by exact L. rewrite IH by discriminate. reflexivity.
Qed.

(** C56: a call that runs alone reports line [k] of its text (or the line after the last, if
    the last line is a comment): every text with the same first [k] lines is refused there,
    and a text that ends before line [k], other than with a comment, is accepted. *)
Theorem C56_line_number : forall n s h k, alone n s h (Failed k) ->
  NewTableSetFromString s h = (h, Err) /\ (1 <= k <= Z.of_nat (List.length (lines s)) + 1)%Z /\
  (forall m s', (k <= Z.of_nat (List.length (lines s)))%Z -> firstn (Z.to_nat k) (lines s') = firstn (Z.to_nat k) (lines s) -> alone m s' h (Failed k)) /\
  (forall j l, (Z.of_nat j + 1 < k)%Z -> nth_error (lines s) j = Some l -> ~ comment l ->
     exists h' ts, NewTableSetFromString (String.concat Model_Print.newline (firstn (S j) (lines s))) h = (h', Ok ts)).
Proof.
  intros n s h k A. apply alone_count in A. symmetry in A. pose proof (count_failed _ _ _ _ A) as B.
  split; [|split; [lia|split]].
  - pose proof (count_returns (lines s) (th_state (start s h)) 1) as C. rewrite A in C. unfold NewTableSetFromString. destruct (lines_cons s) as (l & ls & E). rewrite E in *. cbn [pl start th_state] in C.
    destruct (parse_lines (l :: ls) _); try discriminate. reflexivity.
  - intros m s' L P. apply alone_count. symmetry. replace k with (1 + Z.of_nat (Z.to_nat k - 1))%Z in * by lia.
    apply (count_prefix (lines s)); [exact A|lia|]. replace (S (Z.to_nat (1 + Z.of_nat (Z.to_nat k - 1)) - 1)) with (Z.to_nat (1 + Z.of_nat (Z.to_nat k - 1))) by lia.
    replace (S (Z.to_nat k - 1)) with (Z.to_nat (1 + Z.of_nat (Z.to_nat k - 1))) by lia. exact P.
  - intros j l L N C. destruct (count_before _ _ _ _ j l A ltac:(lia) N C) as (g' & G).
    assert (LE : lines (String.concat Model_Print.newline (firstn (S j) (lines s))) = firstn (S j) (lines s)).
    { apply lines_concat; [destruct (lines s); [destruct j|]; discriminate|]. apply Forall_forall. intros x I. pose proof (lines_no_nl s) as F. rewrite Forall_forall in F. apply F.
      clear - I. revert I. generalize (lines s) (S j). intros ls m. revert ls. induction m as [|m IH]; intros [|y ls]; cbn; [tauto..|]. intros [->|I]; auto. }
    unfold NewTableSetFromString. rewrite LE. destruct (lines s) as [|l0 r]; [destruct j; discriminate|]. cbn [firstn pl start th_state] in *. rewrite G. eauto.
Qed.
(** And it gives what NewTableSetFromString gives. *)
Theorem C56_alone : forall n s h, wf_heap h -> exists o, alone n s h o /\ same_outcome o (NewTableSetFromString s h) /\ (forall o', alone n s h o' -> o' = o).
Proof.
  intros n s h W. exists (count (lines s) (th_state (start s h)) 1). split; [now apply alone_count|]. split; [|intros o' A; now apply alone_count in A].
  pose proof (count_returns (lines s) (th_state (start s h)) 1) as C. unfold NewTableSetFromString. destruct (lines_cons s) as (l & ls & E). rewrite E in *. cbn [pl start th_state] in *.
  destruct (count (l :: ls) _ 1); destruct (parse_lines (l :: ls) _); cbn in C; try discriminate; cbn; auto. now injection C as -> ->.
Qed.

(** C56, refuted: with two goroutines the reported line can be wrong.  The first line of this
    text is bad; the other goroutine has read one line of its text in between. *)
Theorem C56_line_number_concurrent_refuted : exists s1 s2 sched n' ts,
  run_schedule sched (0%Z, starts [(s1, []); (s2, [])]) = (n', ts) /\ done ts 0 (Failed 2) /\ alone 0 s1 [] (Failed 1).
Proof.
  exists "bad", (String.concat Model_Print.newline ["[T]"; "i"; "int"; "7"]), [0; 1; 1; 1; 1; 0; 0]. eexists _, _. split; [vm_compute; reflexivity|]. split.
  - eexists. split; reflexivity.
  - apply alone_count. vm_compute. reflexivity.
Qed.
(** A schedule of two goroutines in which both calls finish: one with a table, one with an error. *)
Example C56_nonvacuous : exists s1 s2 sched n' ts h2 ts2, run_schedule sched (0%Z, starts [(s1, []); (s2, [])]) = (n', ts) /\
  done ts 0 (Failed 4) /\ done ts 1 (Parsed h2 ts2) /\ map (fun t => List.length (rows t)) h2 = [1] /\ wf_heap [].
Proof.
  exists (String.concat Model_Print.newline ["[T]"; "i"; "int"; "x"]), (String.concat Model_Print.newline ["[T]"; "i"; "int"; "7"]), (List.concat (repeat [0; 1] 20)). eexists _, _, _, _.
  split; [vm_compute; reflexivity|]. split; [eexists; split; reflexivity|]. split; [eexists; split; reflexivity|]. split; [reflexivity|apply Proofs_Heap.wf_heap_nil].
Qed.

(** Axioms used by any theorem of this file. *)
Definition all_Props_Race :=
  (@C56_any_schedule,
   @C56_every_call_returns,
   @C56_line_number,
   @C56_alone,
   @C56_line_number_concurrent_refuted).
Print Assumptions all_Props_Race.
