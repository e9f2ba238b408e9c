(** Proofs_JsonTree.v -- a table is written exactly when its nesting is a tree; the round trip of a set. *)
From Coq Require Import ZArith NArith List String Ascii Bool SpecFloat Lia Relations.
From Verif Require Import Base Model_Names Model_Table Model_Sort Model_Heap Model_TableSet Model_Lex Model_Float Model_Time
  Model_Parser Model_Print Model_Json Spec Spec_Heap Spec_Walk Spec_Text Spec_Json Proofs_Lib Proofs_Table Proofs_Cells Proofs_Struct Proofs_Api
  Proofs_Pres Proofs_Api2 Proofs_Copy Proofs_Heap Proofs_Walk Proofs_TableSet Proofs_JsonText Proofs_JsonWrite Proofs_JsonRead.
Import ListNotations.
Local Open Scope string_scope.
Local Open Scope list_scope.

(** ---------- one cell ---------- *)

Lemma json_cell_plain ip h write t ri ci v seen : wf_table t -> is_nil t = false -> at_cell t ci ri = Some v -> (forall q, v <> VTable (Some q)) ->
  exists s, json_cell ip h write t (Z.of_nat ri) (Z.of_nat ci) seen = Ok (s, seen).
Proof.
  intros W NN A NT. destruct (at_cell_range _ _ _ _ W A) as [Hc Hr].
  destruct (nth_error (cnames t) ci) as [cn|] eqn:Ncn; [|apply nth_error_None in Ncn; lia].
  destruct (nth_error (ctypes t) ci) as [ct|] eqn:Nct; [|apply nth_error_None in Nct; rewrite (wf_types_len _ W) in Nct; lia].
  pose proof (at_cell_ok _ _ _ _ _ W A Nct) as [HT GV].
  assert (G : GetValByColIndex t (Z.of_nat ci) (Z.of_nat ri) = Ok v).
  { rewrite get_at by auto. rewrite !Nat2Z.id, A. rewrite !(proj2 (Z.leb_le _ _)) by lia. reflexivity. }
  assert (TX : GetValAsStringByColIndex h t (Z.of_nat ci) (Z.of_nat ri) = match cell_text (fun s => s) encode h ct v with Some r => r | None => Err end).
  { unfold GetValAsStringByColIndex. rewrite NN, G, znth_of_nat, Nct. reflexivity. }
  unfold json_cell. rewrite !znth_of_nat, Ncn, Nct, TX, G. cbn [rbind]. clear TX.
  destruct v as [| b|str|k z|f|f|o|[q|]|tm|g]; try contradiction.
  - cbn [has_type] in HT. subst ct. cbn. eauto.
  - cbn [rbind]. eauto.
  - destruct k; cbn [has_type] in HT; (try destruct HT as [HT|HT]); subst ct; cbn; eauto.
  - cbn [has_type] in HT. subst ct. cbn. eauto.
  - cbn [has_type] in HT. subst ct. cbn. eauto.
  - cbn [has_type] in HT. destruct HT; subst ct; cbn; eauto.
  - exfalso. eapply NT; reflexivity.
  - cbn [rbind]. eauto.
Qed.

Lemma json_cell_table ip h write t ri ci q seen : wf_table t -> is_nil t = false -> at_cell t ci ri = Some (VTable (Some q)) ->
  exists f, json_cell ip h write t (Z.of_nat ri) (Z.of_nat ci) seen =
    if in_set q seen then Err else if is_nil (tab h q) then Ok (f "null", seen)
    else let! (s, seen) := write q seen in Ok (f ("{" ++ s ++ "}")%string, seen).
Proof.
  intros W NN A. destruct (at_cell_range _ _ _ _ W A) as [Hc Hr].
  destruct (nth_error (cnames t) ci) as [cn|] eqn:Ncn; [|apply nth_error_None in Ncn; lia].
  destruct (nth_error (ctypes t) ci) as [ct|] eqn:Nct; [|apply nth_error_None in Nct; rewrite (wf_types_len _ W) in Nct; lia].
  pose proof (at_cell_ok _ _ _ _ _ W A Nct) as [HT GV]. cbn [has_type] in HT. subst ct.
  assert (G : GetValByColIndex t (Z.of_nat ci) (Z.of_nat ri) = Ok (VTable (Some q))).
  { rewrite get_at by auto. rewrite !Nat2Z.id, A. rewrite !(proj2 (Z.leb_le _ _)) by lia. reflexivity. }
  assert (GT : GetTableByColIndex t (Z.of_nat ci) (Z.of_nat ri) = Ok (Some q)).
  { unfold GetTableByColIndex.
    destruct (GetTByColIndex_eq "*Table" t (Z.of_nat ci) (Z.of_nat ri) W ltac:(now apply str_in_In)) as [(_ & _ & _ & _ & _ & E & _)|[No _]].
    - rewrite E, G. reflexivity.
    - elim No. exists "*Table". rewrite Nat2Z.id. unfold ColCount, RowCount. repeat split; auto; try lia. now left. }
  exists (fun s => "{" ++ Quote ip cn ++ ":" ++ s ++ "}")%string.
  unfold json_cell. rewrite !znth_of_nat, Ncn, G, GT. cbn [rbind]. destruct (in_set q seen); [reflexivity|]. destruct (is_nil (tab h q)); [reflexivity|].
  destruct (write q seen) as [[s s2]| |]; reflexivity.
Qed.

(** ---------- trees ---------- *)

Section Tree.
Variable h : heap.
Hypothesis WH : wf_heap h.

Definition met (seen : list ptr) : Prop := NoDup seen /\ Forall (fun q : ptr => q < List.length h /\ is_nil (tab h q) = false) seen.

Definition sound {A R} (f : A -> list ptr -> res (R * list ptr)) (g : list ptr) (x : A) : Prop :=
  forall seen s seen', met seen -> f x seen = Ok (s, seen') -> exists ls, Forall2 (unfolds h) g ls /\ seen' = rev (List.concat ls) ++ seen /\ met seen'.
Definition complete {A R} (n : nat) (f : A -> list ptr -> res (R * list ptr)) (g : list ptr) (x : A) : Prop :=
  forall seen ls, met seen -> Forall2 (unfolds h) g ls -> NoDup (List.concat ls ++ seen) -> List.length (List.concat ls) <= n ->
  exists s, f x seen = Ok (s, rev (List.concat ls) ++ seen).
Definition safe {A R} (n : nat) (f : A -> list ptr -> res (R * list ptr)) (x : A) : Prop :=
  forall seen, met seen -> List.length h < n + List.length seen -> f x seen <> Panic.

Lemma NoDup_tail {A} (a b : list A) : NoDup (a ++ b) -> NoDup b.
Proof. induction a as [|x a IH]; [auto|]. intros N. inversion N. auto. Qed.
Lemma NoDup_move (a b c : list ptr) : NoDup ((a ++ b) ++ c) -> NoDup (b ++ rev a ++ c).
Proof.
  intros N. eapply Permutation.Permutation_NoDup; [|exact N]. rewrite <- app_assoc. rewrite (Permutation.Permutation_app_comm a (b ++ c)).
  rewrite <- app_assoc. apply Permutation.Permutation_app_head. rewrite (Permutation.Permutation_app_comm c a). apply Permutation.Permutation_app_tail. apply Permutation.Permutation_rev.
Qed.

Lemma each_sound {A} (f : A -> list ptr -> res (string * list ptr)) (g : A -> list ptr) l : Forall (fun x => sound f (g x) x) l -> sound (write_each f) (flat_map g l) l.
Proof.
  induction 1 as [|x l S _ IH]; intros seen s seen' M H; cbn [write_each] in H.
  - inversion H; subst. exists []. split; [constructor|split; [reflexivity|exact M]].
  - destruct (f x seen) as [[s1 seen1]| |] eqn:E; cbn [rbind] in H; try discriminate.
    destruct (write_each f l seen1) as [[ss seen2]| |] eqn:E2; cbn [rbind] in H; try discriminate. inversion H; subst.
    destruct (S _ _ _ M E) as (ls & F & -> & M1). destruct (IH _ _ _ M1 E2) as (ls2 & F2 & -> & M2).
    exists (ls ++ ls2). cbn [flat_map]. split; [now apply Forall2_app|]. split; [|exact M2]. now rewrite concat_app, rev_app_distr, app_assoc.
Qed.
Lemma each_complete {A} n (f : A -> list ptr -> res (string * list ptr)) (g : A -> list ptr) l : Forall (fun x => sound f (g x) x) l -> Forall (fun x => complete n f (g x) x) l -> complete n (write_each f) (flat_map g l) l.
Proof.
  intros SO. induction 1 as [|x l S _ IH]; intros seen ls M F N L; cbn [write_each flat_map] in *.
  - inversion F; subst. eexists. reflexivity.
  - apply Forall2_app_inv_l in F as (ls1 & ls2 & F1 & F2 & ->). rewrite concat_app in *. rewrite app_length in L.
    assert (N1 : NoDup (List.concat ls1 ++ seen)).
    { apply NoDup_move in N. apply NoDup_tail in N. eapply Permutation.Permutation_NoDup; [|exact N]. apply Permutation.Permutation_app_tail. symmetry. apply Permutation.Permutation_rev. }
    destruct (S seen ls1 M F1 N1) as (s1 & E1); [lia|]. rewrite E1. cbn [rbind].
    destruct (Forall_inv SO _ _ _ M E1) as (_ & _ & _ & M1).
    destruct (IH (Forall_inv_tail SO) (rev (List.concat ls1) ++ seen) ls2 M1 F2) as (ss & E2); [now apply NoDup_move|lia|].
    rewrite E2. cbn [rbind]. eexists. now rewrite rev_app_distr, <- app_assoc.
Qed.
Lemma each_safe {A} n (f : A -> list ptr -> res (string * list ptr)) (g : A -> list ptr) l : Forall (fun x => sound f (g x) x) l -> Forall (safe n f) l -> safe n (write_each f) l.
Proof.
  intros SO. induction 1 as [|x l S _ IH]; intros seen M L; cbn [write_each]; [discriminate|].
  destruct (f x seen) as [[s1 seen1]| |] eqn:E; cbn [rbind]; try discriminate; [|now elim (S seen M L)].
  destruct (Forall_inv SO _ _ _ M E) as (ls & _ & -> & M1).
  assert (E2 : write_each f l (rev (List.concat ls) ++ seen) <> Panic) by (apply IH; [exact (Forall_inv_tail SO)|exact M1|rewrite app_length; lia]).
  destruct (write_each f l (rev (List.concat ls) ++ seen)) as [[ss seen2]| |]; cbn [rbind]; try discriminate. congruence.
Qed.

Definition nested_of (v : value) : list ptr := match v with VTable (Some q) => if is_nil (tab h q) then [] else [q] | _ => [] end.
Lemma flat_map_zseq {A B} (k : A -> list B) (l : list A) : flat_map (fun i => match znth l i with Some x => k x | None => [] end) (zseq (List.length l)) = flat_map k l.
Proof.
  assert (X : forall pre l, flat_map (fun i => match znth (pre ++ l) i with Some x => k x | None => [] end) (map Z.of_nat (seq (List.length pre) (List.length l))) = flat_map k l).
  { intros pre l'. revert pre. induction l' as [|x l' IH]; intros pre; [reflexivity|]. cbn [List.length seq map flat_map]. rewrite znth_of_nat, nth_error_app2, Nat.sub_diag by auto. cbn [nth_error].
    f_equal. specialize (IH (pre ++ [x])). rewrite app_length, Nat.add_1_r, <- app_assoc in IH. exact IH. }
  exact (X [] l).
Qed.
Lemma nested_flat t : filter (fun q => negb (is_nil (tab h q))) (nested_in (rows t)) = flat_map (fun row => flat_map nested_of row) (rows t).
Proof.
  unfold nested_in. induction (rows t) as [|row rs IH]; [reflexivity|]. cbn [flat_map]. rewrite filter_app, IH. f_equal.
  induction row as [|v row IH2]; [reflexivity|]. cbn [flat_map]. rewrite filter_app, IH2. f_equal. destruct v as [| | | | | | |[q|]| |]; try reflexivity. cbn. destruct (is_nil (tab h q)); reflexivity.
Qed.

Section Cells.
Variables (ip : Z -> bool) (write : ptr -> list ptr -> res (string * list ptr)) (t : table) (p : ptr).
Hypothesis T : nth_error h p = Some t.
Hypothesis NN : is_nil t = false.
Let W : wf_table t := Forall_nth_error _ _ _ _ (wh_tables _ WH) T.
Definition can (q : ptr) (seen : list ptr) : Prop := nests h p q /\ is_nil (tab h q) = false /\ ~ In q seen.

Definition cell_of (ri ci : Z) : list ptr := match znth (rows t) ri with Some row => match znth row ci with Some v => nested_of v | None => [] end | None => [] end.
Lemma cell_of_eq ri ci v : at_cell t ci ri = Some v -> cell_of (Z.of_nat ri) (Z.of_nat ci) = nested_of v.
Proof. unfold at_cell, cell_of. rewrite znth_of_nat. destruct (nth_error (rows t) ri); [|discriminate]. rewrite znth_of_nat. now intros ->. Qed.

Lemma nil_unmet q seen : met seen -> is_nil (tab h q) = true -> in_set q seen = false.
Proof.
  intros [_ F] N. destruct (in_set q seen) eqn:E; [|reflexivity]. apply in_set_In in E. rewrite Forall_forall in F. destruct (F q E). congruence.
Qed.

Lemma cell_sound ri ci : ri < List.length (rows t) -> ci < List.length (cnames t) ->
  (forall q seen s seen', can q seen -> met seen -> write q seen = Ok (s, seen') -> exists l, unfolds h q l /\ seen' = rev l ++ seen /\ met seen') ->
  sound (json_cell ip h write t (Z.of_nat ri)) (cell_of (Z.of_nat ri) (Z.of_nat ci)) (Z.of_nat ci).
Proof.
  intros Hr Hc WR seen s seen' M H. destruct (wf_at_cell t ci ri W Hc Hr) as (ct & v & _ & _ & A & _). rewrite (cell_of_eq _ _ _ A).
  destruct (match v with VTable (Some _) => true | _ => false end) eqn:K.
  - destruct v as [| | | | | | |[q|]| |]; try discriminate. destruct (json_cell_table ip h write t ri ci q seen W NN A) as (f & E). rewrite E in H.
    destruct (in_set q seen) eqn:S; [discriminate|]. cbn [nested_of]. destruct (is_nil (tab h q)) eqn:Nq.
    + inversion H; subst. exists []. split; [constructor|split; [reflexivity|exact M]].
    + destruct (write q seen) as [[x sn]| |] eqn:Wq; cbn [rbind] in H; try discriminate. inversion H; subst.
      destruct (WR q seen x seen') as (l & U & -> & M1); auto.
      * split; [eapply nests_cell; eauto|]. split; [exact Nq|]. intros I. apply in_set_In in I. congruence.
      * exists [l]. cbn [List.concat]. rewrite app_nil_r. split; [repeat constructor; exact U|split; [reflexivity|exact M1]].
  - destruct (json_cell_plain ip h write t ri ci v seen W NN A) as (x & E); [intros q ->; discriminate|]. rewrite E in H. inversion H; subst.
    exists []. split; [destruct v as [| | | | | | |[q|]| |]; try discriminate; constructor|]. split; [reflexivity|exact M].
Qed.
Lemma cell_complete n ri ci : ri < List.length (rows t) -> ci < List.length (cnames t) ->
  (forall q seen l, can q seen -> met seen -> unfolds h q l -> NoDup (l ++ seen) -> List.length l <= n -> exists s, write q seen = Ok (s, rev l ++ seen)) ->
  complete n (json_cell ip h write t (Z.of_nat ri)) (cell_of (Z.of_nat ri) (Z.of_nat ci)) (Z.of_nat ci).
Proof.
  intros Hr Hc WR seen ls M F N L. destruct (wf_at_cell t ci ri W Hc Hr) as (ct & v & _ & _ & A & _). rewrite (cell_of_eq _ _ _ A) in F.
  destruct (match v with VTable (Some _) => true | _ => false end) eqn:K.
  - destruct v as [| | | | | | |[q|]| |]; try discriminate. destruct (json_cell_table ip h write t ri ci q seen W NN A) as (f & E). rewrite E.
    cbn [nested_of] in F. destruct (is_nil (tab h q)) eqn:Nq.
    + inversion F; subst. rewrite (nil_unmet q seen M Nq). eexists. reflexivity.
    + inversion F as [|? l ? ls' U F' E1]; subst. inversion F'; subst. cbn [List.concat] in *. rewrite app_nil_r in *.
      assert (NI : ~ In q seen). { inversion U; subst. cbn in N. inversion N as [|? ? X _]; subst. intros I. apply X. apply in_app_iff. now right. }
      destruct (in_set q seen) eqn:S; [apply in_set_In in S; contradiction|].
      destruct (WR q seen l) as (s & ->); auto. { split; [eapply nests_cell; eauto|auto]. }
      cbn [rbind]. eexists. reflexivity.
  - destruct (json_cell_plain ip h write t ri ci v seen W NN A) as (x & E); [intros q ->; discriminate|].
    exists x. rewrite E. assert (ls = []) as ->; [|reflexivity]. destruct v as [| | | | | | |[q|]| |]; try discriminate; inversion F; reflexivity.
Qed.
Lemma cell_safe n ri ci : ri < List.length (rows t) -> ci < List.length (cnames t) ->
  (forall q seen, can q seen -> met seen -> List.length h < n + List.length seen -> write q seen <> Panic) ->
  safe n (json_cell ip h write t (Z.of_nat ri)) (Z.of_nat ci).
Proof.
  intros Hr Hc WR seen M L. destruct (wf_at_cell t ci ri W Hc Hr) as (ct & v & _ & _ & A & _).
  destruct (match v with VTable (Some _) => true | _ => false end) eqn:K.
  - destruct v as [| | | | | | |[q|]| |]; try discriminate. destruct (json_cell_table ip h write t ri ci q seen W NN A) as (f & E). rewrite E.
    destruct (in_set q seen) eqn:S; [discriminate|]. destruct (is_nil (tab h q)) eqn:Nq; [discriminate|].
    assert (X : write q seen <> Panic). { apply WR; auto. split; [eapply nests_cell; eauto|]. split; [exact Nq|]. intros I. apply in_set_In in I. congruence. }
    destruct (write q seen) as [[x sn]| |]; cbn [rbind]; try discriminate. congruence.
  - destruct (json_cell_plain ip h write t ri ci v seen W NN A) as (x & E); [intros q ->; discriminate|]. rewrite E. discriminate.
Qed.
End Cells.

(** ---------- tables ---------- *)

Lemma Forall_zseq (P : Z -> Prop) n : (forall i, i < n -> P (Z.of_nat i)) -> Forall P (zseq n).
Proof. intros H. apply Forall_forall. intros z I. apply In_zseq in I. replace z with (Z.of_nat (Z.to_nat z)) by lia. apply H. lia. Qed.

Definition row_writer ip write t : Z -> list ptr -> res (string * list ptr) := fun ri seen =>
  let! (cells, seen) := write_each (json_cell ip h write t ri) (zseq (List.length (cnames t))) seen in
  Ok ("[" ++ String.concat "," cells ++ "]", seen)%string.
Lemma flat_cells t row ri : nth_error (rows t) ri = Some row -> List.length row = List.length (cnames t) ->
  flat_map (cell_of t (Z.of_nat ri)) (zseq (List.length (cnames t))) = flat_map nested_of row.
Proof.
  intros R L. rewrite <- L. rewrite <- (flat_map_zseq nested_of row). apply flat_map_ext. intros ci. unfold cell_of. now rewrite znth_of_nat, R.
Qed.
Definition row_of (t : table) (ri : Z) : list ptr := match znth (rows t) ri with Some row => flat_map nested_of row | None => [] end.
Lemma flat_rows t : flat_map (row_of t) (zseq (List.length (rows t))) = filter (fun q => negb (is_nil (tab h q))) (nested_in (rows t)).
Proof. rewrite nested_flat. apply (flat_map_zseq (fun row => flat_map nested_of row)). Qed.

Lemma nests_tab p : p < List.length h -> nth_error h p = Some (tab h p).
Proof. intros L. unfold tab. now apply nth_error_nth'. Qed.

Lemma meta_ok t : wf_table t -> exists meta, rmap (fun ci => match znth (cnames t) ci, znth (ctypes t) ci with
   | Some cn, Some ct => Ok ("{" ++ in_quotes cn ++ ":" ++ in_quotes ct ++ "}")%string | _, _ => Panic end) (zseq (List.length (cnames t))) = Ok meta.
Proof.
  intros W. assert (X : Forall (fun ci => exists s, match znth (cnames t) ci, znth (ctypes t) ci with
   | Some cn, Some ct => Ok ("{" ++ in_quotes cn ++ ":" ++ in_quotes ct ++ "}")%string | _, _ => Panic end = Ok s) (zseq (List.length (cnames t)))).
  { apply Forall_zseq. intros i Hi. rewrite !znth_of_nat. destruct (nth_error (cnames t) i) eqn:A; [|apply nth_error_None in A; lia].
    destruct (nth_error (ctypes t) i) eqn:B; [|apply nth_error_None in B; rewrite (wf_types_len _ W) in B; lia]. eauto. }
  induction X as [|ci l (s & E) _ (meta & IH)]; [exists []; auto|]. cbn [rmap]. rewrite E. cbn [rbind]. rewrite IH. cbn [rbind]. eauto.
Qed.

Lemma met_cons p seen : met seen -> p < List.length h -> is_nil (tab h p) = false -> ~ In p seen -> met (p :: seen).
Proof. intros [N F] L NN NI. split; constructor; auto. Qed.

Lemma rows_sound ip write p : p < List.length h -> is_nil (tab h p) = false ->
  (forall q seen s seen', can p q seen -> met seen -> write q seen = Ok (s, seen') -> exists l, unfolds h q l /\ seen' = rev l ++ seen /\ met seen') ->
  Forall (fun ri => sound (row_writer ip write (tab h p)) (row_of (tab h p) ri) ri) (zseq (List.length (rows (tab h p)))).
Proof.
  intros L NN WR. apply Forall_zseq. intros ri Hr. pose proof (nests_tab p L) as T. destruct (tab_wf h p WH) as [W _].
  destruct (nth_error (rows (tab h p)) ri) as [row|] eqn:R; [|apply nth_error_None in R; lia].
  unfold row_of. rewrite znth_of_nat, R. rewrite <- (flat_cells _ _ _ R (wf_row_len _ W _ _ R)).
  pose proof (each_sound (json_cell ip h write (tab h p) (Z.of_nat ri)) (cell_of (tab h p) (Z.of_nat ri)) (zseq (List.length (cnames (tab h p))))) as ES.
  intros seen s seen' M H. unfold row_writer in H. destruct (write_each _ _ seen) as [[c sn]| |] eqn:E; cbn [rbind] in H; try discriminate. inversion H; subst.
  refine (ES _ seen c seen' M E). apply Forall_zseq. intros ci Hc. eapply cell_sound; eauto.
Qed.
Lemma rows_complete ip write p n : p < List.length h -> is_nil (tab h p) = false ->
  (forall q seen s seen', can p q seen -> met seen -> write q seen = Ok (s, seen') -> exists l, unfolds h q l /\ seen' = rev l ++ seen /\ met seen') ->
  (forall q seen l, can p q seen -> met seen -> unfolds h q l -> NoDup (l ++ seen) -> List.length l <= n -> exists s, write q seen = Ok (s, rev l ++ seen)) ->
  Forall (fun ri => complete n (row_writer ip write (tab h p)) (row_of (tab h p) ri) ri) (zseq (List.length (rows (tab h p)))).
Proof.
  intros L NN WS WR. apply Forall_zseq. intros ri Hr. pose proof (nests_tab p L) as T. destruct (tab_wf h p WH) as [W _].
  destruct (nth_error (rows (tab h p)) ri) as [row|] eqn:R; [|apply nth_error_None in R; lia].
  unfold row_of. rewrite znth_of_nat, R. rewrite <- (flat_cells _ _ _ R (wf_row_len _ W _ _ R)).
  intros seen ls M F N LL. unfold row_writer.
  destruct (each_complete n (json_cell ip h write (tab h p) (Z.of_nat ri)) (cell_of (tab h p) (Z.of_nat ri)) (zseq (List.length (cnames (tab h p))))) with (seen := seen) (ls := ls) as (c & ->); auto.
  - apply Forall_zseq. intros ci Hc. eapply cell_sound; eauto.
  - apply Forall_zseq. intros ci Hc. eapply cell_complete; eauto.
  - cbn [rbind]. eauto.
Qed.
Lemma rows_safe ip write p n : p < List.length h -> is_nil (tab h p) = false ->
  (forall q seen s seen', can p q seen -> met seen -> write q seen = Ok (s, seen') -> exists l, unfolds h q l /\ seen' = rev l ++ seen /\ met seen') ->
  (forall q seen, can p q seen -> met seen -> List.length h < n + List.length seen -> write q seen <> Panic) ->
  Forall (safe n (row_writer ip write (tab h p))) (zseq (List.length (rows (tab h p)))).
Proof.
  intros L NN WS WR. apply Forall_zseq. intros ri Hr. pose proof (nests_tab p L) as T.
  intros seen M LL. unfold row_writer.
  assert (X : write_each (json_cell ip h write (tab h p) (Z.of_nat ri)) (zseq (List.length (cnames (tab h p)))) seen <> Panic).
  { apply (each_safe n _ (cell_of (tab h p) (Z.of_nat ri))); auto; apply Forall_zseq; intros ci Hc; [eapply cell_sound; eauto|eapply cell_safe; eauto]. }
  destruct (write_each _ _ seen) as [[c sn]| |]; cbn [rbind]; congruence.
Qed.

Lemma rec_eq fuel ip p seen : getTableAsJSON_recursive (S fuel) ip h p seen =
  let t := tab h p in
  let! meta := rmap (fun ci => match znth (cnames t) ci, znth (ctypes t) ci with
                                   | Some cn, Some ct => Ok ("{" ++ in_quotes cn ++ ":" ++ in_quotes ct ++ "}")%string
                                   | _, _ => Panic
                                   end) (zseq (List.length (cnames t))) in
  let! (data, seen) := write_each (row_writer ip (getTableAsJSON_recursive fuel ip h) t) (zseq (List.length (rows t))) (p :: seen) in
  Ok ((in_quotes "tableName" ++ ":" ++ Quote ip (tname t) ++ ","
          ++ (if struct_shape t then in_quotes "isStructShape" ++ ":true," else "")
          ++ in_quotes "metadata" ++ ":[" ++ String.concat "," meta ++ "],"
          ++ in_quotes "data" ++ ":[" ++ String.concat "," data ++ "]")%string, seen).
Proof. reflexivity. Qed.

Lemma table_sound ip : forall fuel p seen s seen', p < List.length h -> is_nil (tab h p) = false -> ~ In p seen -> met seen ->
  getTableAsJSON_recursive fuel ip h p seen = Ok (s, seen') -> exists l, unfolds h p l /\ seen' = rev l ++ seen /\ met seen'.
Proof.
  induction fuel as [|fuel IH]; intros p seen s seen' L NN NI M H; [discriminate|]. rewrite rec_eq in H. cbv zeta in H.
  destruct (tab_wf h p WH) as [W _]. destruct (meta_ok (tab h p) W) as (meta & EM). rewrite EM in H. cbn [rbind] in H.
  destruct (write_each _ _ _) as [[data sn]| |] eqn:E; cbn [rbind] in H; try discriminate.
  assert (seen' = sn) by (injection H; auto). subst sn. clear H.
  destruct (each_sound _ (row_of (tab h p)) (zseq (List.length (rows (tab h p)))) (rows_sound ip (getTableAsJSON_recursive fuel ip h) p L NN ltac:(
     intros q sn x sn' (C1 & C2 & C3) M' E'; eapply IH; eauto; now apply (nests_valid _ _ _ C1))) _ _ _ (met_cons _ _ M L NN NI) E) as (ls & F & -> & M1).
  rewrite flat_rows in F. exists (p :: List.concat ls). split; [now constructor|]. split; [|exact M1]. cbn [rev]. now rewrite <- app_assoc.
Qed.
Lemma table_complete ip : forall fuel p seen l, p < List.length h -> is_nil (tab h p) = false -> met seen ->
  unfolds h p l -> NoDup (l ++ seen) -> List.length l <= fuel -> exists s, getTableAsJSON_recursive fuel ip h p seen = Ok (s, rev l ++ seen).
Proof.
  induction fuel as [|fuel IH]; intros p seen l L NN M U N LL. { inversion U; subst. cbn in LL. lia. }
  inversion U as [p' ls F]; subst. rewrite rec_eq. cbv zeta. destruct (tab_wf h p WH) as [W _]. destruct (meta_ok (tab h p) W) as (meta & ->). cbn [rbind].
  cbn [app] in N. inversion N as [|? ? NI N']; subst. cbn [List.length] in LL.
  assert (NP : ~ In p seen) by (intros I; apply NI, in_app_iff; now right).
  assert (WS : forall q sn x sn', can p q sn -> met sn -> getTableAsJSON_recursive fuel ip h q sn = Ok (x, sn') -> exists l, unfolds h q l /\ sn' = rev l ++ sn /\ met sn').
  { intros q sn x sn' (C1 & C2 & C3) M' E'. eapply table_sound; eauto. now apply (nests_valid _ _ _ C1). }
  destruct (each_complete fuel _ (row_of (tab h p)) (zseq (List.length (rows (tab h p)))) (rows_sound ip (getTableAsJSON_recursive fuel ip h) p L NN WS)
     (rows_complete ip (getTableAsJSON_recursive fuel ip h) p fuel L NN WS ltac:(intros q sn l (C1 & C2 & C3) M' U' N1 L1; apply IH; auto; now apply (nests_valid _ _ _ C1)))
     (p :: seen) ls (met_cons _ _ M L NN NP)) as (data & ED).
  - now rewrite flat_rows.
  - eapply Permutation.Permutation_NoDup; [|exact N]. apply Permutation.Permutation_middle.
  - lia.
  - unfold ptr in *. rewrite ED. cbn [rbind rev]. rewrite <- app_assoc. eexists. reflexivity.
Qed.
Lemma table_safe ip : forall fuel p seen, p < List.length h -> is_nil (tab h p) = false -> ~ In p seen -> met seen ->
  List.length h < fuel + List.length seen -> getTableAsJSON_recursive fuel ip h p seen <> Panic.
Proof.
  induction fuel as [|fuel IH]; intros p seen L NN NI M LL.
  - exfalso. destruct M as [N F]. assert (I : incl seen (seq 0 (List.length h))). { intros q Q. rewrite Forall_forall in F. apply in_seq. destruct (F q Q). unfold ptr in *. lia. }
    pose proof (NoDup_incl_length N I) as X. rewrite seq_length in X. cbn [Nat.add] in LL. unfold ptr in *. lia.
  - rewrite rec_eq. cbv zeta. destruct (tab_wf h p WH) as [W _]. destruct (meta_ok (tab h p) W) as (meta & ->). cbn [rbind].
    assert (WS : forall q sn x sn', can p q sn -> met sn -> getTableAsJSON_recursive fuel ip h q sn = Ok (x, sn') -> exists l, unfolds h q l /\ sn' = rev l ++ sn /\ met sn').
    { intros q sn x sn' (C1 & C2 & C3) M' E'. eapply table_sound; eauto. now apply (nests_valid _ _ _ C1). }
    assert (X : write_each (row_writer ip (getTableAsJSON_recursive fuel ip h) (tab h p)) (zseq (List.length (rows (tab h p)))) (p :: seen) <> Panic).
    { apply (each_safe fuel _ (row_of (tab h p))).
      - apply rows_sound; auto.
      - apply rows_safe; auto. intros q sn (C1 & C2 & C3) M' L'. apply IH; auto. now apply (nests_valid _ _ _ C1).
      - now apply met_cons.
      - cbn [List.length]. unfold ptr in *. lia. }
    destruct (write_each _ _ _) as [[data sn]| |]; cbn [rbind]; congruence.
Qed.

Lemma met_nil : met []. Proof. split; constructor. Qed.

(** A table is written, or refused because a table is met twice. *)
Theorem written_iff ip (p : ptr) : p < List.length h ->
  getTableAsJSON_private ip h (Some p) <> Panic /\ ((exists s, getTableAsJSON_private ip h (Some p) = Ok s) <-> is_tree h p).
Proof.
  intros L. unfold getTableAsJSON_private. destruct (is_nil (tab h p)) eqn:NN.
  - destruct (tab_wf h p WH) as [W _]. destruct (wf_name _ W) as [[X _]|(_ & E1 & E2 & E3)]; [congruence|].
    assert (E : exists s, getTableAsJSON_recursive (S (List.length h)) ip h p [] = Ok (s, [p])).
    { rewrite rec_eq. cbv zeta. rewrite E2, E3. cbn. eexists. reflexivity. }
    destruct E as (s & ->). cbn [rbind]. split; [discriminate|]. split; [intros _|eauto]. exists [p]. split; [|repeat constructor; intros []].
    change [p] with (p :: List.concat []). constructor. rewrite E3. constructor.
  - pose proof (table_safe ip (S (List.length h)) p [] L NN (fun x => x) met_nil) as SA. cbn [List.length] in SA. specialize (SA ltac:(lia)).
    destruct (getTableAsJSON_recursive _ _ _ _ _) as [[s sn]| |] eqn:E; cbn [rbind]; (split; [congruence|]).
    + split; [intros _|eauto]. destruct (table_sound _ _ _ [] _ _ L NN (fun x => x) met_nil E) as (l & U & -> & [N _]). exists l. split; [exact U|].
      rewrite app_nil_r in N. apply NoDup_rev in N. now rewrite rev_involutive in N.
    + split; [intros (s & X); discriminate|]. intros (l & U & N). exfalso.
      destruct (table_complete ip (S (List.length h)) p [] l L NN met_nil U) as (s & X); [now rewrite app_nil_r| |unfold ptr in *; congruence].
      enough (I : incl l (seq 0 (List.length h))). { pose proof (NoDup_incl_length N I) as X. rewrite seq_length in X. lia. }
      clear - U WH L. remember (List.length l) as k eqn:K. assert (KL : List.length l <= k) by lia. clear K. revert p l L U KL.
      induction k as [|k IH]; intros p l L U KL; inversion U; subst; cbn [List.length] in KL; [lia|].
      intros q [<-|I]; [apply in_seq; unfold ptr in *; lia|]. apply in_concat in I as (lq & Ilq & Iq). apply In_nth_error in Ilq as (i & Ni).
      destruct (Forall2_nth_r _ _ _ _ _ H Ni) as (a & Na & Ua). apply nth_error_In in Na. apply filter_In in Na as [Na _].
      apply (IH a lq); auto.
      * apply (nests_valid h p a); auto. exists (tab h p). split; [now apply nests_tab|exact Na].
      * assert (LQ : List.length lq <= List.length (List.concat ls)); [|lia]. apply nth_error_In in Ni. clear - Ni. induction ls as [|x ls IH]; [contradiction|].
        cbn. rewrite app_length. destruct Ni as [->|Ni]; [lia|]. specialize (IH Ni). lia.
    + congruence.
Qed.
End Tree.
