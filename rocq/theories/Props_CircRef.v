(** Props_CircRef.v -- the error of a refused nesting: C65. *)
From Coq Require Import ZArith NArith List String Ascii Bool SpecFloat Permutation Relations Lia.
From Verif Require Import Base Model_Names Model_Table Model_Sort Model_Copy Model_Merge Model_Ops Model_Heap Model_CircRef.
From Verif Require Import Spec Spec_Sort Spec_Heap Spec_Walk Spec_CircRef.
From Verif Require Import Proofs_Lib Proofs_Table Proofs_Cells Proofs_Api Proofs_Pres Proofs_Env Proofs_Heap Proofs_Walk Proofs_Nesting Proofs_CircRef.
From Verif Require Import Samples Props_Heap Props_Walk.
Import ListNotations.
Local Open Scope string_scope.
Local Open Scope list_scope.

(** ---------- C65 ---------- *)

(** A CircRefError is found under any number of wrappings, and its text is at the end of
    the text of the whole; an error that is none and wraps none gives nil. *)
Theorem C65_found_in_wrappings : forall prefixes c,
  let e := fold_right Wrap (Circ c) prefixes in
  GetCircRefError (Some e) = Some c /\ HasCircRefError (Some e) = true
  /\ Error e = Some (fold_right (fun x s => x ++ ": " ++ s) (cr_msg c) prefixes)%string
  /\ GetCircRefError (Some (fold_right Wrap Other prefixes)) = None /\ HasCircRefError (Some (fold_right Wrap Other prefixes)) = false
  /\ HasCircRefError None = false.
Proof.
  intros l c e.
  assert (A : as_circ e = Some c) by (subst e; induction l; simpl; auto).
  assert (B : as_circ (fold_right Wrap Other l) = None) by (induction l; simpl; auto).
  unfold HasCircRefError, GetCircRefError. rewrite A, B. repeat (split; [auto|]).
  - subst e. clear. induction l as [|x l IH]; [reflexivity|]. cbn [fold_right Error]. now rewrite IH.
  - repeat split; auto.
Qed.

(** NewCircRefError keeps the two tables, and its text names them or is the text given. *)
Theorem C65_new : forall h root circ msg,
  RootTable (NewCircRefError h root circ msg) = root /\ CircTable (NewCircRefError h root circ msg) = circ
  /\ (forall p q, root = Some p -> circ = Some q -> cr_msg (NewCircRefError h root circ "") = circ_text (tname (tab h p)) (tname (tab h q)))
  /\ (msg <> "" -> cr_msg (NewCircRefError h root circ msg) = ("CircRefError: " ++ msg)%string).
Proof.
  intros h root circ msg. unfold NewCircRefError. destruct (String.eqb_spec msg "") as [->|N].
  - repeat (split; [reflexivity|]). split; [|contradiction]. intros p q -> ->. reflexivity.
  - repeat (split; [reflexivity|]). split; [|reflexivity]. intros p q -> ->. reflexivity.
Qed.

(** IsValidTableNesting returns an error exactly when the nesting is refused. *)
Theorem C65_error_iff_refused : forall h (p : ptr), wf_heap h -> p < List.length h ->
  (IsValidTableNesting_err h p = None <-> IsValidTableNesting h p = Ok tt)
  /\ (IsValidTableNesting_err h p = None <-> flat_nesting h p)
  /\ (HasCircularReference_err h p = None <-> HasCircularReference h p = Ok false).
Proof.
  intros h p WH L. pose proof (err_iff h p) as A. pose proof (IsValidTableNesting_iff h p WH L) as B.
  split; [exact A|]. split; [now rewrite A|]. unfold HasCircularReference_err, HasCircularReference.
  pose proof (IsValidTableNesting_no_panic h p WH L) as NP.
  destruct (IsValidTableNesting_err h p) as [e|]; destruct (IsValidTableNesting h p) as [[]| |]; split; try congruence.
  - intros _. destruct A as [_ A]. now discriminate A.
  - destruct A as [A _]. now discriminate A.
Qed.

(** A CircRefError in the error is about the receiver and a table nested in it, and the text
    of the error names both. *)
Theorem C65_what_it_says : forall h (p : ptr) c, wf_heap h -> p < List.length h ->
  GetCircRefError (IsValidTableNesting_err h p) = Some c ->
  ~ flat_nesting h p /\ RootTable c = Some p
  /\ exists q e, CircTable c = Some q /\ In q (nested_in (rows (tab h p))) /\ cr_msg c = circ_text (tname (tab h p)) (tname (tab h q))
     /\ IsValidTableNesting_err h p = Some e /\ Error e = Some ("IsValidTableNesting(): " ++ circ_text (tname (tab h p)) (tname (tab h q)))%string.
Proof.
  intros h p c WH L G. destruct (IsValidTableNesting_err h p) as [e|] eqn:E; [|discriminate].
  split. { intros F. apply (C65_error_iff_refused h p WH L) in F. congruence. }
  destruct (err_cases h p e WH L E) as [->|(q & Q & ->)]; [discriminate|]. injection G as <-. split; [reflexivity|].
  exists q. eexists. split; [reflexivity|]. split; [exact Q|]. split; [reflexivity|]. split; reflexivity.
Qed.

(** If the nested tables nest nothing further, a refused nesting always gives a CircRefError,
    about the first table, cell by cell, that is the receiver or was there before. *)
Theorem C65_first_repeat : forall h (p : ptr), wf_heap h -> p < List.length h -> shallow h p -> ~ flat_nesting h p ->
  exists q c, first_repeat p (nested_in (rows (tab h p))) q /\ GetCircRefError (IsValidTableNesting_err h p) = Some c
    /\ RootTable c = Some p /\ CircTable c = Some q.
Proof.
  intros h p WH L S N. destruct (shallow_error h p WH L S) as [F|(q & R & E)]; [contradiction|].
  exists q. eexists. split; [exact R|]. rewrite E. split; [reflexivity|]. split; reflexivity.
Qed.

(** There is only one such table. *)
Theorem C65_one_first_repeat : forall p l q q', first_repeat p l q -> first_repeat p l q' -> q = q'.
Proof.
  intros p l q q' (b & a & E & N & I) (b' & a' & E' & N' & I'). rewrite E in E'. clear E l.
  assert (K : forall (b b' a a' : list ptr) (q q' : ptr) (p0 : list ptr), b ++ q :: a = b' ++ q' :: a' -> NoDup (p0 ++ b) -> In q (p0 ++ b) -> NoDup (p0 ++ b') -> In q' (p0 ++ b') -> q = q').
  { clear. intros b. induction b as [|x b IH]; intros [|y b'] a a' q q' p0 E N I N' I'; simpl in E; injection E as E1 E2; auto.
    - subst y. exfalso. rewrite app_nil_r in I. apply NoDup_remove_2 in N'. apply N'. apply in_app_iff. now left.
    - subst q'. exfalso. rewrite app_nil_r in I'. apply NoDup_remove_2 in N. apply N. apply in_app_iff. now left.
    - subst y. apply (IH b' a a' q q' (p0 ++ [x])); auto; now rewrite <- app_assoc. }
  exact (K b b' a a' q q' [p] E' N I N' I').
Qed.

(** The errors of HasCircularReference, and so those of Copy and CopyCols for a circular
    nesting, never have a CircRefError in them, although the refusal is the same. *)
Theorem C65_HasCircularReference_refuted : forall h (p : ptr), wf_heap h -> p < List.length h ->
  HasCircRefError (HasCircularReference_err h p) = false /\ HasCircRefError (Copy_circ_err h p) = false.
Proof.
  intros h p _ _. unfold Copy_circ_err, HasCircularReference_err. destruct (IsValidTableNesting_err h p); split; reflexivity.
Qed.

(** A chain of three tables, all columns at the same place. *)
Definition chain_history : list hop :=
  [ HNewTable "A"; HNewTable "B"; HNewTable "C";
    HTab (Some 0) (OAppendCol "kid" "*Table"); HTab (Some 0) OAppendRow;
    HTab (Some 1) (OAppendCol "kid" "*Table"); HTab (Some 1) OAppendRow;
    HTab (Some 0) (OSet "*Table" "kid" 0 (VTable (Some 1))); HTab (Some 1) (OSet "*Table" "kid" 0 (VTable (Some 2))) ].
Definition chain_heap : heap := Eval vm_compute in match play env0 chain_history [] with Some h => h | None => [] end.
Lemma chain_reachable : reachable env0 chain_heap.
Proof. eapply play_reachable; [apply reach_empty|]. instantiate (1 := chain_history). vm_compute. reflexivity. Qed.

(** With deeper nestings the error need not have a CircRefError, and one that it has need not
    name a table that occurs twice: in a chain of three different tables it names the second. *)
Theorem C65_deeper_refuted :
  (reachable env0 deep_heap /\ tree deep_heap 0 /\ HasCircRefError (IsValidTableNesting_err deep_heap 0) = false
   /\ IsValidTableNesting deep_heap 0 = Err)
  /\ exists c, reachable env0 chain_heap /\ GetCircRefError (IsValidTableNesting_err chain_heap 0) = Some c /\ CircTable c = Some 1
     /\ cr_msg c = circ_text "A" "B"
     /\ nested_in (rows (tab chain_heap 0)) = [1] /\ nested_in (rows (tab chain_heap 1)) = [2] /\ nested_in (rows (tab chain_heap 2)) = [].
Proof.
  split.
  - split; [apply deep_reachable|]. split; [exists deep_tour; split; [apply deep_visits|apply C34_nonvacuous]|]. split; vm_compute; reflexivity.
  - eexists. split; [apply chain_reachable|]. split; [vm_compute; reflexivity|]. repeat split; reflexivity.
Qed.

(** Table A nests B, then C, then B again. *)
Definition twice_history : list hop :=
  [ HNewTable "A"; HNewTable "B"; HNewTable "C"; HTab (Some 1) (OAppendCol "s" "string"); HTab (Some 1) OAppendRow;
    HTab (Some 0) (OAppendCol "i" "int"); HTab (Some 0) (OAppendCol "kid" "*Table");
    HTab (Some 0) OAppendRow; HTab (Some 0) OAppendRow; HTab (Some 0) OAppendRow;
    HTab (Some 0) (OSet "*Table" "kid" 0 (VTable (Some 1))); HTab (Some 0) (OSet "*Table" "kid" 1 (VTable (Some 2)));
    HTab (Some 0) (OSet "*Table" "kid" 2 (VTable (Some 1))) ].
Definition twice_heap : heap := Eval vm_compute in match play env0 twice_history [] with Some h => h | None => [] end.
Lemma twice_reachable : reachable env0 twice_heap.
Proof. eapply play_reachable; [apply reach_empty|]. instantiate (1 := twice_history). vm_compute. reflexivity. Qed.
Example C65_nonvacuous : wf_heap twice_heap /\ shallow twice_heap 0 /\ ~ flat_nesting twice_heap 0
  /\ nested_in (rows (tab twice_heap 0)) = [1; 2; 1]
  /\ IsValidTableNesting_err twice_heap 0 = Some (Wrap "IsValidTableNesting()" (Circ (mkCR (Some 0) (Some 1)
       "CircRefError: circular reference in table [A]: a reference to table [B] already exists")))
  /\ shallow cyclic_heap 0 /\ ~ flat_nesting cyclic_heap 0 /\ HasCircRefError (IsValidTableNesting_err cyclic_heap 0) = true.
Proof.
  assert (WT : wf_heap twice_heap) by (apply (reachable_wf env0); [apply env0_ok|apply twice_reachable]).
  assert (WC : wf_heap cyclic_heap) by (apply (reachable_wf env0); [apply env0_ok|apply cyclic_reachable]).
  split; [exact WT|]. split.
  { intros q Q N. vm_compute in Q. destruct Q as [<-|[<-|[<-|[]]]]; reflexivity. }
  split. { intros [F _]. change (NoDup [0; 1; 2; 1]) in F. inversion F as [|? ? _ F1]; subst. inversion F1 as [|? ? F2 _]; subst. apply F2. simpl. auto. }
  split; [reflexivity|]. split; [vm_compute; reflexivity|]. split.
  { intros q Q N. vm_compute in Q. destruct Q as [<-|[]]. contradiction. }
  split. { intros [F _]. change (NoDup [0; 0]) in F. inversion F as [|? ? F1 _]; subst. apply F1. simpl. auto. }
  vm_compute. reflexivity.
Qed.

(** Axioms used by any theorem of this file. *)
Definition all_Props_CircRef :=
  (@C65_found_in_wrappings,
   @C65_new,
   @C65_error_iff_refused,
   @C65_what_it_says,
   @C65_first_repeat,
   @C65_one_first_repeat,
   @C65_HasCircularReference_refuted,
   @C65_deeper_refuted).
Print Assumptions all_Props_CircRef.
